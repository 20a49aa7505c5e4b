(** Reading a parameter set into the columns of a data frame (for C54). *)
From Coq Require Import String List Arith Lia Bool ZArith QArith Qcanon Reals Sorted Permutation.
From Verif Require Import Base ListFacts Units TimeModel Core CoreEvo CoreTree CoreNames CoreInv Spec_Core
  Spec_Time TimeProps Filters ParameterType Frame FrameInterp FrameStore StoreHolds StoreCalls StoreWalk.
Import ListNotations.
Local Open Scope string_scope.
Local Open Scope list_scope.

(** What a held parameter adds: a timeseries or a metadata column. *)
Inductive kind :=
| KSeries (v r u : string) (ty : ptype) (xs : list R)
| KMeta (key : string) (v : pyval).

Definition absorb (c : collected) (k : kind) : collected :=
  match k with
  | KSeries v r u ty xs =>
    mkCollected (meta_append "parameter_type" (PStr (type_name ty))
                  (meta_append "unit" (PStr u) (meta_append "region" (PStr r) (meta_append "variable" (PStr v) (c_meta c)))))
      (c_data c ++ [map Some xs])
  | KMeta key v => mkCollected (dict_put String.eqb key [v] (c_meta c)) (c_data c)
  end.

Definition tells (env : uenv) (q_of : R -> Qc) (times avg : list Z) (e : entry) (k : kind) : Prop :=
  match k with
  | KSeries v r u ty xs =>
    exists rs ns, let tps := match ty with POINT_TIMESERIES => times | _ => avg end in
      e = mkEntry rs ns ty (Some u) (Some (mkTP 1 tps)) (PArr (map Some xs)) /\
      v = join "|" ns /\ r = join "|" rs /\ env u <> None /\ timeseries ty /\ increasing tps /\ belongs ty tps xs /\ (3 <= length xs)%nat
  | KMeta key v =>
    exists ns,
    (exists g, e = mkEntry ["World"] ns GENERIC None None (PGen g) /\ pyval_of q_of g = Ok v /\ key = join "|" ns) \/
    (exists u x, e = mkEntry ["World"] ns SCALAR (Some u) None (PScalar x) /\ env u <> None /\
       v = match x with Some x => PNum (q_of x) | None => PNaN end /\ key = (join "|" ns ++ " (" ++ u ++ ")")%string)
  end.

Lemma collect_one_ok env q_of times avg s E e k p c : good_env env -> holds env s E -> In e E ->
  param_at s (e_region e) (e_name e) = Some p -> tells env q_of times avg e k ->
  exists s', collect_one env q_of times avg s ((e_name e, e_region e), p) c = (s', Ok (absorb c k)) /\
    st_params s' = st_params s /\ st_regions s' = st_regions s /\ wf env s'.
Proof.
  intros G H IE PA T. destruct (h_in _ _ _ H e IE) as (p' & q & PA' & Q & TY & QU & QT & QD & RD & WR & CH).
  assert (p' = p) by congruence. subst p'. unfold collect_one. rewrite Q, TY.
  destruct k as [v r u ty xs|key v]; cbn [tells] in T.
  - destruct T as (rs & ns & EE & EV & ER & U & T & I & B & L3). set (tps := match ty with POINT_TIMESERIES => times | _ => avg end) in *.
    subst e. cbn [e_type e_region e_name e_unit] in *. rewrite QU.
    destruct (read_series env s E (mkEntry rs ns ty (Some u) (Some (mkTP 1 tps)) (PArr (map Some xs))) u tps xs G U T I B L3 H IE eq_refl eq_refl eq_refl) as (s1 & vi & s2 & S1 & S2 & P & R & W).
    cbn [e_type e_region e_name] in S1. exists s2. split; [|auto].
    subst tps. destruct T as [->| ->]; rewrite S1, S2; cbn [absorb]; subst v r; reflexivity.
  - destruct T as (ns & [(g & EE & PV & EK)|(u & x & EE & U & PV & EK)]); subst e; cbn [e_type e_region e_name e_unit] in *; cbn [names_eqb String.eqb Ascii.eqb Bool.eqb andb].
    + destruct (read_generic env s E (mkEntry ["World"] ns GENERIC None None (PGen g)) g H IE eq_refl eq_refl) as (s1 & vi & s2 & S1 & S2 & P & R & W).
      cbn [e_region e_name] in S1. exists s2. split; [|auto]. rewrite S1, S2, PV. cbn [rbind absorb]. now subst key.
    + rewrite QU. destruct (read_scalar env s E (mkEntry ["World"] ns SCALAR (Some u) None (PScalar x)) u x G U H IE eq_refl eq_refl eq_refl) as (s1 & vi & s2 & S1 & S2 & P & R & W).
      cbn [e_region e_name] in S1. exists s2. split; [|auto]. unfold world. rewrite S1, S2. cbn [absorb]. now subst key v.
Qed.

Lemma collect_ok env q_of times avg E items ks : good_env env ->
  Forall2 (fun item k => exists e, In e E /\ fst item = (e_name e, e_region e) /\ tells env q_of times avg e k) items ks ->
  forall s c, holds env s E ->
  (forall k v, In (k, v) items -> exists e, In e E /\ k = (e_name e, e_region e) /\ param_at s (e_region e) (e_name e) = Some v) ->
  exists s', collect env q_of times avg items s c = (s', Ok (fold_left absorb ks c)) /\
    st_params s' = st_params s /\ st_regions s' = st_regions s /\ wf env s'.
Proof.
  intros G. induction 1 as [|[key p] k items ks (e & IE & EK & T) F IH]; intros s c H IT.
  - exists s. split; [reflexivity|]. split; [reflexivity|]. split; [reflexivity|]. apply H.
  - cbn [fst] in EK. subst key. destruct (IT _ p (or_introl eq_refl)) as (e' & IE' & EK & PA).
    pose proof (f_equal fst EK) as E1. pose proof (f_equal snd EK) as E2. cbn in E1, E2. rewrite <- E1, <- E2 in PA.
    cbn [collect]. destruct (collect_one_ok env q_of times avg s E e k p c G H IE PA T) as (s1 & C & P & R & W).
    rewrite C. cbn [fold_left].
    pose proof (holds_shape env s s1 E H W R P) as H1.
    destruct (IH s1 (absorb c k) H1) as (s2 & C2 & P2 & R2 & W2).
    { intros k' v I. destruct (IT k' v (or_intror I)) as (e2 & I2 & K2 & PA2). exists e2. repeat split; auto.
      rewrite (shape_at s s1); [exact PA2|]. split; [exact R|]. intros i. now rewrite P. }
    exists s2. rewrite C2. split; [reflexivity|]. split; [congruence|]. split; [congruence|]. exact W2.
Qed.

(** ** The collected columns *)
Definition series_of (k : kind) : list (string * string * string * ptype * list R) :=
  match k with KSeries v r u ty xs => [(v, r, u, ty, xs)] | KMeta _ _ => [] end.
Definition meta_keys (ks : list kind) : list string := flat_map (fun k => match k with KMeta key _ => [key] | _ => [] end) ks.

Lemma fold_data ks : forall c, c_data (fold_left absorb ks c) = c_data c ++ map (fun x => map Some (snd x)) (flat_map series_of ks).
Proof.
  induction ks as [|[v r u ty xs|key v] ks IH]; intros c; cbn [fold_left flat_map series_of map app]; rewrite ?IH; cbn [absorb c_data snd].
  - now rewrite app_nil_r.
  - now rewrite <- app_assoc.
  - reflexivity.
Qed.

Lemma append_keys k v m : map fst (meta_append k v m) = map fst m.
Proof. unfold meta_append. rewrite map_map. apply map_ext. intros [k' l]. cbn [fst]. now destruct (String.eqb k k'). Qed.
Lemma append_in k v m k' l : In (k', l) m -> In (k', if String.eqb k k' then l ++ [v] else l) (meta_append k v m).
Proof. intros I. unfold meta_append. apply in_map_iff. exists (k', l). cbn [fst snd]. split; [|exact I]. now destruct (String.eqb k k'). Qed.

Lemma absorb_keys_nodup ks : forall c, NoDup (map fst (c_meta c)) -> NoDup (map fst (c_meta (fold_left absorb ks c))).
Proof.
  induction ks as [|[v r u ty xs|key v] ks IH]; intros c N; cbn [fold_left]; [assumption|..]; apply IH; cbn [absorb c_meta].
  - unfold metadata in *. rewrite !append_keys. exact N.
  - apply dict_put_nodup; [intros a b; apply String.eqb_eq|assumption].
Qed.

Lemma dict_put_key k (v : list pyval) d k' : In k' (map fst (dict_put String.eqb k v d)) <-> k' = k \/ In k' (map fst d).
Proof.
  induction d as [|[k1 v1] d IH]; cbn; [split; [intros [<-|[]]; auto|intros [->|[]]; auto]|].
  destruct (String.eqb_spec k k1) as [->|]; cbn; [split; [tauto|intros [->|X]; auto]|]. rewrite IH. tauto.
Qed.

Lemma absorb_keys ks : forall c k, In k (map fst (c_meta (fold_left absorb ks c))) <-> In k (map fst (c_meta c)) \/ In k (meta_keys ks).
Proof.
  induction ks as [|[v r u ty xs|key v] ks IH]; intros c k; cbn [fold_left meta_keys flat_map app]; rewrite ?IH; cbn [absorb c_meta].
  - cbn. tauto.
  - rewrite !append_keys. tauto.
  - rewrite dict_put_key. cbn [In]. fold (meta_keys ks). split; [intros [[->|X]|X]|intros [X|[->|X]]]; auto.
Qed.

(** The four columns of the timeseries. *)
Definition getter (k : string) (x : string * string * string * ptype * list R) : pyval :=
  let '(v, r, u, ty, _) := x in
  PStr (if String.eqb k "variable" then v else if String.eqb k "region" then r else if String.eqb k "unit" then u else type_name ty).

Lemma absorb_series ks : forall c k l, NoDup (map fst (c_meta c)) -> In k series_cols -> ~ In k (meta_keys ks) -> In (k, l) (c_meta c) ->
  In (k, l ++ map (getter k) (flat_map series_of ks)) (c_meta (fold_left absorb ks c)).
Proof.
  induction ks as [|[v r u ty xs|key v] ks IH]; intros c k l N S NK I; cbn [fold_left flat_map series_of map app].
  - now rewrite app_nil_r.
  - change (getter k (v, r, u, ty, xs) :: map (getter k) (flat_map series_of ks)) with
      ([getter k (v, r, u, ty, xs)] ++ map (getter k) (flat_map series_of ks)). rewrite app_assoc.
    apply IH; [cbn [absorb c_meta]; now rewrite !append_keys|exact S|exact NK|]. cbn [absorb c_meta].
    apply (append_in "variable" (PStr v)) in I. apply (append_in "region" (PStr r)) in I.
    apply (append_in "unit" (PStr u)) in I. apply (append_in "parameter_type" (PStr (type_name ty))) in I.
    destruct S as [<-|[<-|[<-|[<-|[]]]]]; exact I.
  - cbn [meta_keys flat_map app In] in NK. apply IH; [cbn [absorb c_meta]; apply dict_put_nodup; [exact String.eqb_eq|exact N]|exact S|tauto|].
    cbn [absorb c_meta]. apply (dict_put_in String.eqb String.eqb_eq); [exact N|]. right. split; [intros ->; tauto|exact I].
Qed.

(** A column that no timeseries adds to and no parameter replaces. *)
Lemma absorb_other ks : forall c k l, NoDup (map fst (c_meta c)) -> ~ In k series_cols -> ~ In k (meta_keys ks) -> In (k, l) (c_meta c) ->
  In (k, l) (c_meta (fold_left absorb ks c)).
Proof.
  induction ks as [|[v r u ty xs|key v] ks IH]; intros c k l N S NK I; cbn [fold_left].
  - exact I.
  - apply IH; [cbn [absorb c_meta]; now rewrite !append_keys|exact S|exact NK|]. cbn [absorb c_meta].
    apply (append_in "variable" (PStr v)) in I. apply (append_in "region" (PStr r)) in I.
    apply (append_in "unit" (PStr u)) in I. apply (append_in "parameter_type" (PStr (type_name ty))) in I.
    cbn [series_cols In] in S. revert I.
    destruct (String.eqb_spec "variable" k), (String.eqb_spec "region" k), (String.eqb_spec "unit" k), (String.eqb_spec "parameter_type" k); tauto.
  - cbn [meta_keys flat_map app In] in NK. apply IH; [cbn [absorb c_meta]; apply dict_put_nodup; [exact String.eqb_eq|exact N]|exact S|tauto|].
    cbn [absorb c_meta]. apply (dict_put_in String.eqb String.eqb_eq); [exact N|]. right. split; [intros ->; tauto|exact I].
Qed.

Lemma absorb_meta ks : forall c k v, NoDup (map fst (c_meta c)) -> ~ In k series_cols -> NoDup (meta_keys ks) -> In (KMeta k v) ks ->
  In (k, [v]) (c_meta (fold_left absorb ks c)).
Proof.
  induction ks as [|k0 ks IH]; intros c k v N S NK I; [destruct I|]. cbn [fold_left]. destruct I as [->|I].
  - cbn [meta_keys flat_map app] in NK. apply NoDup_cons_iff in NK. destruct NK as [NK _].
    apply absorb_other; [cbn [absorb c_meta]; apply dict_put_nodup; [exact String.eqb_eq|exact N]|exact S|exact NK|].
    cbn [absorb c_meta]. apply (dict_put_in String.eqb String.eqb_eq); [exact N|]. now left.
  - apply IH; auto.
    + destruct k0; cbn [absorb c_meta]; [now rewrite !append_keys|]. apply dict_put_nodup; [exact String.eqb_eq|exact N].
    + destruct k0; cbn [meta_keys flat_map app] in NK; [exact NK|]. now apply NoDup_cons_iff in NK.
Qed.

Lemma in_meta_keys k v ks : In (KMeta k v) ks -> In k (meta_keys ks).
Proof. intros I. apply in_flat_map. exists (KMeta k v). split; [exact I|now left]. Qed.
Lemma meta_keys_in k ks : In k (meta_keys ks) -> exists v, In (KMeta k v) ks.
Proof. intros I. apply in_flat_map in I. destruct I as ([|k' v] & I & J); [destruct J|]. destruct J as [->|[]]. eauto. Qed.
