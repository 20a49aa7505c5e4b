(** A concrete run of DICE whose results are read back (for C91). *)
From Coq Require Import String List ZArith Reals Bool Arith Lia.
From Verif Require Import Base Units TimeModel Calendar Core CoreNames CoreInv Spec_Core Adapters Dice DiceSim DiceBase Spec_Dice DiceMachine
  DiceUsed DiceProps DiceRepeat Spec_DiceMono DiceEx DiceRunEx.
From Verif Require Import Frame FrameStore Spec_Interp Spec_Store Pipeline PipelineEx PipelineBack.
From Verif Require Import Spec_Pipeline.
Import ListNotations.
Local Open Scope string_scope.
Local Open Scope list_scope.

Section E.
Context (x0 x1 x2 x3 x4 : R).
Notation user := (e_user x0 x1 x2 x3 x4).
Notation start := (e_start x0 x1 x2 x3 x4).
Notation Iw := (I dice_env start (vi_of start)).

Lemma e_empty : w_out (a_world _ user) = init_state "World".
Proof. rewrite e_user_is. reflexivity. Qed.

Definition e_p (name : string) : R := match i_scalar Iw name with Ok (Some x) => x | _ => 0%R end.
Lemma e_numbers name : In name scalar_names -> i_scalar Iw name = Ok (Some (e_p name)).
Proof.
  intros N. assert (X : exists x, i_scalar Iw name = Ok (Some x)).
  { unfold scalar_names in N. cbn [List.In] in N. repeat (destruct N as [<-|N]; [eexists; ev; reflexivity|]). contradiction. }
  destruct X as (x & X). unfold e_p. now rewrite X.
Qed.

Section A.
Context (k : nat) (ak : adapter Dice.world) (w0 : Dice.world) (d0 d : dstate) (A : after_k dice_env user k ak w0 d0 d).
Lemma e_same : w0 = start.
Proof. eapply prepared_det; [apply e_prepared|apply A]. Qed.
Lemma e_settings : setting dice_env ak "period_length" = Ok (GDelta YEAR) /\ setting dice_env ak "original_rounding" = Ok (GBool true) /\
  setting dice_env ak "start_time" = Ok (GTime (mkDT 1000000000 0)) /\ setting dice_env ak "forcoth_saturation_time" = Ok (GTime (mkDT day_ns 47482)).
Proof. rewrite !(ak_setting _ _ _ _ _ _ _ A), e_same. repeat split; ev; reflexivity. Qed.
Lemma e_values name : In name scalar_names -> value dice_env ak name = Ok (Some (e_p name)).
Proof. intros N. rewrite (ak_value _ _ _ _ _ _ _ A), e_same. now apply e_numbers. Qed.
Lemma e_works_after : works_with dice_env ak 0 year_s 5.
Proof.
  destruct e_settings as (S1 & _ & S3 & _).
  split; [eexists; split; [exact S3|reflexivity]|]. split; [eexists; split; [exact S1|reflexivity]|]. split; [|repeat split; reflexivity].
  destruct (ak_count _ _ _ _ _ _ _ A) as (m & C & ->). rewrite e_same in C.
  assert (C5 : i_count Iw = Ok 5%Z) by (ev; reflexivity). assert (m = 5%Z) as -> by (rewrite C5 in C; injection C as <-; reflexivity). reflexivity.
Qed.
End A.

Lemma e_back : exists a1 ak vals, resets dice_env user a1 /\ steps dice_env 4 a1 ak /\ works_with dice_env ak 0 year_s 5 /\
  (forall name i, In name series_names -> (i < 5)%nat -> out dice_env ak name i = Ok (Some (vals name i))) /\
  (forall name, In name scalar_names -> value dice_env ak name = Ok (Some (e_p name))) /\
  setting dice_env ak "period_length" = Ok (GDelta YEAR) /\ setting dice_env ak "original_rounding" = Ok (GBool true) /\
  setting dice_env ak "start_time" = Ok (GTime (mkDT 1000000000 0)) /\ setting dice_env ak "forcoth_saturation_time" = Ok (GTime (mkDT day_ns 47482)) /\
  exists a', runs dice_env user a' /\ works_with dice_env a' 0 year_s 5 /\
    (forall name i, In name series_names -> (i < 5)%nat -> out dice_env a' name i = Ok (Some (vals name i))).
Proof.
  destruct (e_runs x0 x1 x2 x3 x4) as (a1 & R & P5 & Go & _). destruct (Go 4%nat ltac:(lia)) as (ak & S).
  destruct (steps_after _ _ _ _ _ R S) as (w0 & d0 & d & A).
  pose proof (e_works_after _ _ _ _ _ A) as Ww. destruct (e_settings _ _ _ _ _ A) as (S1 & S2 & S3 & S4). pose proof (e_values _ _ _ _ _ A) as Vl.
  pose proof (C90_same_proof dice_env _ _ _ _ _ _ _ _ 0 year_s 5 (GBool true) dice_good (e_storable x0 x1 x2 x3 x4) (e_series x0 x1 x2 x3 x4)
    (e_stored x0 x1 x2 x3 x4) (e_handed x0 x1 x2 x3 x4) R S Ww S2 eq_refl) as Em.
  set (e := fun i => match emission dice_env ak i with Ok (Some x) => x | _ => 0%R end).
  assert (Rd : reads dice_env ak e_p e 4 YEAR (GBool true) (mkDT 1000000000 0) (mkDT day_ns 47482)).
  { constructor; auto. intros i Hi. destruct (Em i ltac:(lia)) as (x & Ex & _). unfold e. now rewrite Ex. }
  destruct (trajectory _ _ _ _ _ _ _ _ _ _ _ R S Rd) as (y & _ & _ & Yo).
  exists a1, ak, (fun name i => y i name). split; [exact R|]. split; [exact S|]. split; [exact Ww|].
  split; [intros name i I Hi; apply Yo; [exact I|lia]|]. repeat (split; [assumption|]).
  destruct (C45_run dice_env _ _ _ _ R P5 S) as (a' & E & As). apply as_same in As. destruct As as (_ & _ & Ou).
  assert (Ru : runs dice_env user a') by (split; [apply R|exact E]). exists a'. split; [exact Ru|].
  destruct (run_ok _ _ _ Ru) as (w1 & d1 & d2 & m & _ & A'). split; [exact (e_works_after _ _ _ _ _ A')|].
  intros name i I Hi. rewrite (Ou name i I). apply Yo; [exact I|lia].
Qed.
End E.
