(** Paths in the graph of a metric context, and the check of the metric tables (for C38). *)
From Coq Require Import String Ascii List ZArith QArith Qpower Qreals Reals Bool Lia Field.
From Verif Require Import Base Units Gases GasesFacts Spec_Core Spec_Units UnitsProps GasTable.
Import ListNotations.
Local Open Scope string_scope.
Local Open Scope list_scope.

(** ** Paths in a star *)

Section Star.
Variable c : context.
Variable hub : dim.
Hypothesis star : forall nd, In nd (neighbours c hub) -> nd <> hub /\ neighbours c nd = [hub].

Lemma dim_in_true d l : dim_in d l = true <-> In d l.
Proof.
  unfold dim_in. rewrite existsb_exists. split.
  - intros (x & I & E). apply dim_eqb_true in E. now subst.
  - intros I. exists d. split; auto. apply dim_eqb_refl.
Qed.
Lemma dim_in_false d l : dim_in d l = false <-> ~ In d l.
Proof. rewrite <- dim_in_true. destruct (dim_in d l); split; congruence. Qed.

Lemma dead_end n vis nd goal : neighbours c nd = [hub] -> In hub vis -> nd <> goal ->
  find_path c (S n) vis nd goal = None.
Proof.
  intros N H Ne. cbn [find_path]. apply dim_eqb_false in Ne. rewrite Ne, N. cbn [fold_left].
  assert (dim_in hub (nd :: vis) = true) as -> by (apply dim_in_true; now right). reflexivity.
Qed.

Definition step_hub (n : nat) (vis : list dim) (goal : dim) (best : option (list dim)) (nd : dim) :=
  if dim_in nd (hub :: vis) then best
  else match find_path c n (hub :: vis) nd goal with
       | None => best
       | Some p =>
         match best with
         | None => Some (hub :: p)
         | Some b => if (S (length p) <? length b)%nat then Some (hub :: p) else best
         end
       end.

Lemma fold_done n vis goal l : (forall nd, In nd l -> In nd (neighbours c hub)) ->
  fold_left (step_hub (S n) vis goal) l (Some [hub; goal]) = Some [hub; goal].
Proof.
  induction l as [|nd l IH]; intros H; simpl; auto.
  assert (step_hub (S n) vis goal (Some [hub; goal]) nd = Some [hub; goal]) as ->.
  { unfold step_hub. destruct (dim_in nd (hub :: vis)) eqn:D; auto.
    destruct (star nd) as [Ne N]; [apply H; now left|].
    destruct (dim_eqb nd goal) eqn:E.
    - apply dim_eqb_true in E. subst nd. cbn [find_path]. now rewrite dim_eqb_refl.
    - apply dim_eqb_false in E. rewrite dead_end; auto. now left. }
  apply IH. intros x I. apply H. now right.
Qed.

Lemma fold_finds n vis goal l : (forall nd, In nd l -> In nd (neighbours c hub)) ->
  In goal l -> ~ In goal (hub :: vis) ->
  fold_left (step_hub (S n) vis goal) l None = Some [hub; goal].
Proof.
  induction l as [|nd l IH]; intros H I V; [destruct I|]. cbn [fold_left].
  assert (Hl : forall x, In x l -> In x (neighbours c hub)) by (intros x J; apply H; now right).
  destruct (star nd) as [Ne N]; [apply H; now left|].
  destruct (dim_eqb nd goal) eqn:E.
  - apply dim_eqb_true in E. subst nd.
    assert (step_hub (S n) vis goal None goal = Some [hub; goal]) as ->.
    { unfold step_hub. apply dim_in_false in V. rewrite V. cbn [find_path]. now rewrite dim_eqb_refl. }
    now apply fold_done.
  - apply dim_eqb_false in E. destruct I as [I|I]; [contradiction|].
    assert (step_hub (S n) vis goal None nd = None) as ->.
    { unfold step_hub. destruct (dim_in nd (hub :: vis)); auto.
      rewrite dead_end; auto. now left. }
    auto.
Qed.

Lemma from_hub n vis goal : In goal (neighbours c hub) -> ~ In goal (hub :: vis) ->
  find_path c (S (S n)) vis hub goal = Some [hub; goal].
Proof.
  intros I V. change (find_path c (S (S n)) vis hub goal) with
    (if dim_eqb hub goal then Some [hub]
     else fold_left (step_hub (S n) vis goal) (neighbours c hub) None).
  destruct (star goal I) as [Ne _].
  assert (dim_eqb hub goal = false) as -> by (apply dim_eqb_false; congruence).
  now apply fold_finds.
Qed.

Lemma to_hub n a : neighbours c a = [hub] -> a <> hub -> find_path c (S (S n)) [] a hub = Some [a; hub].
Proof.
  intros N Ne. change (find_path c (S (S n)) [] a hub) with
    (if dim_eqb a hub then Some [a]
     else fold_left (fun best nd =>
        if dim_in nd [a] then best
        else match find_path c (S n) [a] nd hub with
             | None => best
             | Some p => match best with
                         | None => Some (a :: p)
                         | Some b => if (S (length p) <? length b)%nat then Some (a :: p) else best
                         end
             end) (neighbours c a) None).
  assert (dim_eqb a hub = false) as -> by now apply dim_eqb_false.
  rewrite N. cbn [fold_left].
  assert (dim_in hub [a] = false) as -> by (apply dim_in_false; intros [E|[]]; congruence).
  cbn [find_path]. now rewrite dim_eqb_refl.
Qed.

Lemma through_hub n a b : neighbours c a = [hub] -> a <> hub -> In b (neighbours c hub) -> a <> b ->
  find_path c (S (S (S n))) [] a b = Some [a; hub; b].
Proof.
  intros N Ne I Nab. change (find_path c (S (S (S n))) [] a b) with
    (if dim_eqb a b then Some [a]
     else fold_left (fun best nd =>
        if dim_in nd [a] then best
        else match find_path c (S (S n)) [a] nd b with
             | None => best
             | Some p => match best with
                         | None => Some (a :: p)
                         | Some b => if (S (length p) <? length b)%nat then Some (a :: p) else best
                         end
             end) (neighbours c a) None).
  assert (dim_eqb a b = false) as -> by now apply dim_eqb_false.
  rewrite N. cbn [fold_left].
  assert (dim_in hub [a] = false) as -> by (apply dim_in_false; intros [E|[]]; congruence).
  destruct (star b I) as [Nb _].
  rewrite from_hub; auto. simpl. intros [E|[E|[]]]; congruence.
Qed.
End Star.

Lemma to_self c n vis a : find_path c (S n) vis a a = Some [a].
Proof. cbn [find_path]. now rewrite dim_eqb_refl. Qed.

Lemma no_way c n a b : neighbours c a = [] -> a <> b -> find_path c n [] a b = None.
Proof.
  intros N Ne. destruct n as [|n]; auto. cbn [find_path].
  apply dim_eqb_false in Ne. now rewrite Ne, N.
Qed.

(** ** The tables *)

Definition shapes : list shape := [Amount; MassFlux; Mass; Flux].
Lemma shapes_all sh : In sh shapes. Proof. destruct sh; simpl; auto. Qed.

Definition onum_eqb (a b : option Q) : bool :=
  match a, b with Some x, Some y => Qeq_bool x y | None, None => true | _, _ => false end.

Definition check_tr (c : context) (a b : dim) (k : option Q) : bool :=
  match find_tr c a b with
  | None => false
  | Some t => Qeq_bool (fst (tr_unit t)) 1 && dim_eqb (dim_mul 1 (snd (tr_unit t)) a) b &&
              onum_eqb (tr_num t) k
  end.

Definition hub_of (sh : shape) : dim := shape_dim sh "carbon".

Definition check_row (c : context) (co2 : Q) (row : string * option Q) : bool :=
  match unit_of std_registry (fst row) with
  | Ok (q, [(b, 1%Z)]) =>
    negb (String.eqb b "carbon") &&
    forallb (fun sh =>
      let a := shape_dim sh b in
      let k := match snd row with Some v => Some (v * co2 / q) | None => None end in
      match neighbours c a with [h] => dim_eqb h (hub_of sh) | _ => false end &&
      negb (dim_eqb a (hub_of sh)) &&
      dim_in a (neighbours c (hub_of sh)) &&
      check_tr c a (hub_of sh) k &&
      check_tr c (hub_of sh) a (match k with Some x => Some (/ x) | None => None end)) shapes &&
    (match snd row with Some v => negb (Qeq_bool v 0) | None => true end)
  | _ => false
  end.

Definition check_hub (c : context) (sh : shape) : bool :=
  forallb (fun nd => negb (dim_eqb nd (hub_of sh)) &&
    match neighbours c nd with [h] => dim_eqb h (hub_of sh) | _ => false end)
    (neighbours c (hub_of sh)).

Definition check_ctx (i : nat) : bool :=
  match metric_context std_registry (metric_column i) [] with
  | Err _ => false
  | Ok c =>
    (2 <=? length c)%nat && forallb (check_row c (12 # 44)) (metric_column i) &&
    forallb (check_hub c) shapes
  end.

Lemma ctx_checked : forallb check_ctx [0; 1; 2]%nat = true.
Proof. vm_cast_no_check (eq_refl true). Qed.

