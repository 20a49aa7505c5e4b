(** Lemmas on interpolating data frames whose parameter types are given (C53): no guesses are needed. *)
From Coq Require Import String Ascii List ZArith.
From Verif Require Import Base Units TimeModel Core Filters Civil Offsets ParameterType Spec_Time Frame Spec_Frame FrameEdit FrameInterp Spec_Interp InterpProps.
Import ListNotations.
Local Open Scope string_scope.
Local Open Scope list_scope.

Lemma rmap_same {A B} (f g : A -> res B) l : (forall a, In a l -> f a = g a) -> rmap f l = rmap g l.
Proof. induction l as [|a l IH]; cbn; auto. intros H. rewrite (H a), IH; auto. Qed.

Lemma guess_given env shared f : aligned f -> (forall l, In l (map fst (fr_data f)) -> exists v, meta_of f l "parameter_type" v /\ v <> MNone) ->
  guess_all env shared (with_type f) = guess_all env true (with_type f).
Proof.
  intros AL G. destruct (with_type_ok f AL) as (A1 & _ & _ & _ & ML & M1). unfold guess_all. f_equal.
  apply rmap_same. intros [l row] I. cbn [fst snd].
  destruct (G l) as (v & V & N); [rewrite (al_labels _ AL), <- ML; now apply (in_map fst) in I|].
  assert (V1 : meta_of (with_type f) l "parameter_type" v) by (apply M1; auto).
  apply cell_meta in V1 as (r & R1 & R2 & _); [|exact A1]. rewrite (meta_unique _ l r row A1 R1 I) in R2.
  assert (E : guess_row env (fr_cols (with_type f)) row = Ok None) by (unfold guess_row; rewrite R2; destruct v; congruence).
  rewrite E. reflexivity.
Qed.

Lemma interpolate_given env shared targets ex f : aligned f ->
  (forall l, In l (map fst (fr_data f)) -> exists v, meta_of f l "parameter_type" v /\ v <> MNone) ->
  interpolate env shared targets ex f = interpolate env true targets ex f.
Proof. intros AL G. unfold interpolate. now rewrite (guess_given env shared f AL G). Qed.
Lemma resample_given env shared rule ex f : aligned f ->
  (forall l, In l (map fst (fr_data f)) -> exists v, meta_of f l "parameter_type" v /\ v <> MNone) ->
  resample env shared rule ex f = resample env true rule ex f.
Proof.
  intros AL G. unfold resample. destruct (fr_times f) as [|t ts]; [reflexivity|].
  destruct (to_offset rule) as [o|e]; [|reflexivity]. cbn [rbind].
  destruct (generate_range _ _ o) as [r|e]; [|reflexivity]. cbn [rbind]. now apply interpolate_given.
Qed.
