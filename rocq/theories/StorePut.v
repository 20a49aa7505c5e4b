(** Storing a data frame in a parameter set (for C54). *)
From Coq Require Import String Ascii List Arith Lia Bool ZArith QArith Qcanon Reals Sorted Permutation.
From Verif Require Import Base ListFacts Units TimeModel Core CoreEvo CoreTree CoreNames CoreInv Spec_Core
  Spec_Time TimeProps Spec_Names NamesProps Filters ParameterType Frame Spec_Frame FrameEdit FrameInterp InterpProps FrameStore Spec_Store
  StoreHolds StoreCalls StoreWalk StoreBack.
Import ListNotations.
Local Open Scope string_scope.
Local Open Scope list_scope.

(** ** Texts *)
Lemma without_cons x c w : without x (String c w) <-> c <> x /\ without x w.
Proof.
  split.
  - intros H. split; [intros ->; now apply (H "" w)|]. intros a b ->. now apply (H (String c a) b).
  - intros [N H] [|a0 a] b E; cbn in E; injection E as E1 E2; [contradiction|]. now apply (H a b).
Qed.
Lemma without_nil x : without x "".
Proof. intros [|a0 a] b; discriminate. Qed.
Lemma without_app x a b : without x a -> without x b -> without x (a ++ b)%string.
Proof.
  induction a as [|c a IH]; intros A B; [exact B|]. apply without_cons in A. cbn. apply without_cons. split; [apply A|apply IH; [apply A|exact B]].
Qed.
Lemma split_without x w : without x w -> split x w = [w].
Proof.
  induction w as [|c w IH]; intros H; [reflexivity|]. apply without_cons in H. cbn.
  destruct (Ascii.eqb_spec c x); [tauto|]. now rewrite IH.
Qed.
Lemma split_at x w s : without x w -> split x (w ++ String x s)%string = w :: split x s.
Proof.
  induction w as [|c w IH]; intros H; cbn [append split].
  - now rewrite Ascii.eqb_refl.
  - apply without_cons in H. destruct (Ascii.eqb_spec c x); [tauto|]. now rewrite IH.
Qed.
Lemma has_unit_no k : without "("%char k -> has_unit k = false.
Proof.
  induction k as [|c k IH]; intros H; [reflexivity|]. apply without_cons in H. cbn [has_unit].
  destruct (Ascii.eqb c newline); [reflexivity|]. destruct (Ascii.eqb_spec c "("%char); [tauto|]. now apply IH.
Qed.
Lemma closes_yes u : without newline u -> closes (u ++ ")") = true.
Proof.
  induction u as [|c u IH]; intros H; [reflexivity|]. apply without_cons in H. cbn [closes append].
  destruct (Ascii.eqb_spec c newline); [tauto|]. destruct (Ascii.eqb c ")"%char); [reflexivity|]. now apply IH.
Qed.
Lemma has_unit_yes n s : without newline n -> closes s = true -> has_unit (n ++ String "("%char s) = true \/ exists a b, n = (a ++ String "("%char b)%string.
Proof.
  intros N C. induction n as [|c n IH]; [left; exact C|]. apply without_cons in N. cbn [has_unit append].
  destruct (Ascii.eqb_spec c newline); [tauto|]. destruct (Ascii.eqb_spec c "("%char) as [->|].
  - right. now exists "", n.
  - destruct IH as [IH|(a & b & ->)]; [tauto|auto|]. right. now exists (String c a), b.
Qed.
Lemma rstrip_space w : rstrip (w ++ " ") = rstrip w.
Proof. induction w as [|c w IH]; [reflexivity|]. cbn [append rstrip]. now rewrite IH. Qed.
Lemma rstrip_id w : (forall a c, w = (a ++ String c "")%string -> is_space c = false) -> rstrip w = w.
Proof.
  induction w as [|c w IH]; intros H; [reflexivity|]. cbn [rstrip]. rewrite IH.
  - destruct w; [|reflexivity]. now rewrite (H "" c eq_refl).
  - intros a c' ->. apply (H (String c a) c'). reflexivity.
Qed.
Lemma strip_id w : trimmed w -> strip w = w.
Proof.
  intros [A B]. unfold strip. replace (lstrip w) with w; [now apply rstrip_id|].
  destruct w as [|c w]; [reflexivity|]. cbn [lstrip]. now rewrite (A c w eq_refl).
Qed.
Lemma strip_space w : trimmed w -> strip (w ++ " ") = w.
Proof.
  intros T. destruct w as [|c w]; [reflexivity|]. pose proof T as [A B]. unfold strip. cbn [lstrip append]. rewrite (A c w eq_refl).
  change (String c (w ++ " ")) with (String c w ++ " ")%string. rewrite rstrip_space. now apply rstrip_id.
Qed.

Lemma app_assoc_s a b c : (a ++ b ++ c)%string = ((a ++ b) ++ c)%string.
Proof. induction a; cbn; congruence. Qed.

Lemma quantity_ok c n u : quantity_column c n u -> has_unit c = true /\ unit_name c = n /\ unit_unit c = u.
Proof.
  intros (-> & TN & TU & N1 & N2 & U1 & U2 & U3).
  assert (E : (n ++ " (" ++ u ++ ")")%string = ((n ++ " ") ++ String "(" (u ++ ")"))%string) by (now rewrite <- app_assoc_s).
  assert (W : without "("%char (n ++ " ")).
  { apply without_app; [exact N1|]. apply without_cons. split; [discriminate|apply without_nil]. }
  assert (W2 : without "("%char (u ++ ")")).
  { apply without_app; [exact U1|]. apply without_cons. split; [discriminate|apply without_nil]. }
  rewrite E. split; [|split].
  - destruct (has_unit_yes (n ++ " ") (u ++ ")")) as [X|(a & b & X)]; [| |exact X|now destruct (W a b)].
    + apply without_app; [exact N2|]. apply without_cons. split; [discriminate|apply without_nil].
    + now apply closes_yes.
  - unfold unit_name. rewrite (split_at _ _ _ W). cbn [nth]. now apply strip_space.
  - unfold unit_unit. rewrite (split_at _ _ _ W), (split_without _ _ W2). cbn [nth].
    rewrite (split_at ")"%char u "" U2). cbn [nth]. now apply strip_id.
Qed.

(** ** Names *)
Lemma join_split v : join "|" (split "|"%char v) = v.
Proof. apply join_written, split_is_written. Qed.
Lemma join_app a : forall m, a <> [] -> m <> [] -> join "|" (a ++ m) = (join "|" a ++ "|" ++ join "|" m)%string.
Proof.
  induction a as [|w a IH]; intros m NA NM; [contradiction|]. destruct a as [|w' a].
  - cbn [app]. destruct m; [contradiction|reflexivity].
  - cbn [app] in *. change (join "|" (w :: w' :: a ++ m)) with (w ++ "|" ++ join "|" (w' :: a ++ m))%string.
    rewrite IH by easy. change (join "|" (w :: w' :: a)) with (w ++ "|" ++ join "|" (w' :: a))%string.
    rewrite <- !app_assoc_s. reflexivity.
Qed.
Lemma prefix_under v v' : prefix (split "|"%char v) (split "|"%char v') -> under v v'.
Proof.
  intros (m & E). rewrite <- (join_split v), <- (join_split v'), E. destruct m as [|x m]; [left; now rewrite app_nil_r|].
  right. exists (join "|" (x :: m)). apply join_app; [|discriminate]. apply (written_nonempty _ v), split_is_written.
Qed.
Lemma split_inj v v' : split "|"%char v = split "|"%char v' -> v = v'.
Proof. intros E. now rewrite <- (join_split v), <- (join_split v'), E. Qed.
Lemma split_ne v : split "|"%char v <> [].
Proof. apply (written_nonempty _ v), split_is_written. Qed.

(** ** Independent parameters *)
Definition aparte (e e' : entry) : Prop :=
  e_region e = e_region e' -> ~ prefix (e_name e) (e_name e') /\ ~ prefix (e_name e') (e_name e).
Lemma aparte_sym e e' : aparte e e' -> aparte e' e.
Proof. intros H R. symmetry in R. destruct (H R). auto. Qed.
Lemma fop_apart E e rest : ForallOrdPairs aparte (E ++ e :: rest) -> apart e E.
Proof.
  induction E as [|e0 E IH]; intros F; [intros e' []|]. cbn in F. inversion F as [|? ? F1 F2]; subst.
  intros e' [<-|I] R; [|now apply (IH F2)]. rewrite Forall_forall in F1.
  assert (J : In e (E ++ e :: rest)) by (apply in_app_iff; right; now left). destruct (F1 e J R). auto.
Qed.
Lemma fop_app (l1 l2 : list entry) : ForallOrdPairs aparte l1 -> ForallOrdPairs aparte l2 ->
  (forall x y, In x l1 -> In y l2 -> aparte x y) -> ForallOrdPairs aparte (l1 ++ l2).
Proof.
  induction 1 as [|x l F1 F IH]; intros F2 H; [exact F2|]. cbn. constructor.
  - apply Forall_app. split; [exact F1|]. apply Forall_forall. intros y I. apply H; [now left|exact I].
  - apply IH; [exact F2|]. intros a b I J. apply H; [now right|exact J].
Qed.
Lemma fop_of {A K} (key : A -> K) (P : A -> entry * kind -> Prop) l EK : Forall2 P l EK -> NoDup (map key l) ->
  (forall x y e e', In x l -> In y l -> key x <> key y -> P x e -> P y e' -> aparte (fst e) (fst e')) ->
  ForallOrdPairs aparte (map fst EK).
Proof.
  induction 1 as [|x e l EK Px F IH]; intros N H; cbn [map]; constructor.
  - apply Forall_map, Forall_forall. intros e' I. cbn [map] in N. apply NoDup_cons_iff in N. destruct N as [N _].
    assert (X : exists y, In y l /\ P y e').
    { clear -F I. induction F as [|a b l l' Pa F IH]; [destruct I|]. destruct I as [<-|I]; [exists a; split; [now left|exact Pa]|].
      destruct (IH I) as (y & J & Py). exists y. split; [now right|exact Py]. }
    destruct X as (y & J & Py). apply (H x y e e'); auto; [now left|now right|]. intros E. apply N. rewrite E. now apply in_map.
  - cbn [map] in N. apply NoDup_cons_iff in N. apply IH; [apply N|]. intros a b e1 e2 I J. apply H; now right.
Qed.
Lemma fop_nodup E : ForallOrdPairs aparte E -> NoDup (map (fun e => (e_name e, e_region e)) E).
Proof.
  induction 1 as [|e E F1 F IH]; cbn; constructor; [|exact IH].
  intros I. apply in_map_iff in I. destruct I as (e' & EQ & I). rewrite Forall_forall in F1.
  pose proof (f_equal fst EQ) as E1. pose proof (f_equal snd EQ) as E2. cbn in E1, E2.
  destruct (F1 e' I (eq_sym E2)) as [X _]. apply X. exists []. now rewrite app_nil_r, E1.
Qed.

(** ** Timeseries *)
Definition series_for (env : uenv) (f : frame) (avg : list Z) (d : Z * list num) (ek : entry * kind) : Prop :=
  exists row v r u ty xs rest, let tps := match ty with POINT_TIMESERIES => fr_times f | _ => avg end in
    row_at (fst d) (fr_meta f) = Some row /\
    cell (fr_cols f) row "variable" = MStr v /\ cell (fr_cols f) row "region" = MStr r /\ cell (fr_cols f) row "unit" = MStr u /\
    meta_of f (fst d) "variable" (MStr v) /\ meta_of f (fst d) "region" (MStr r) /\ meta_of f (fst d) "unit" (MStr u) /\
    row_type env (fr_cols f) row v u = Ok ty /\ env u <> None /\ timeseries ty /\ increasing tps /\ belongs ty tps xs /\
    (3 <= length xs)%nat /\ snd d = map Some xs /\ split "|"%char r = "World" :: rest /\
    ek = (mkEntry (split "|"%char r) (split "|"%char v) ty (Some u) (Some (mkTP 1 tps)) (PArr (map Some xs)), KSeries v r u ty xs).

Lemma put_series_all env f avg : good_env env -> extended (fr_times f) = Ok avg -> forall data EK, Forall2 (series_for env f avg) data EK ->
  forall s E, holds env s E -> ForallOrdPairs aparte (E ++ map fst EK) ->
  exists s', put_all_series env f data s = (s', Ok tt) /\ holds env s' (E ++ map fst EK).
Proof.
  intros G EX. induction 1 as [|[l vals] ek data EK P F IH]; intros s E H FO.
  - exists s. cbn [map]. rewrite app_nil_r. auto.
  - destruct P as (row & v & r & u & ty & xs & rest & RA & CV & CR & CU & _ & _ & _ & RT & U & T & I & B & L3 & EV & HR & EK0).
    cbn [fst snd] in *. subst vals ek. cbn [map fst] in *. cbn [put_all_series]. rewrite RA. unfold put_series. rewrite CV, CR, CU, RT.
    set (tps := match ty with POINT_TIMESERIES => fr_times f | _ => avg end) in *.
    assert (X : match ty with AVERAGE_TIMESERIES => extended (fr_times f) | _ => Ok (fr_times f) end = Ok tps).
    { destruct T as [->| ->]; [exact EX|reflexivity]. }
    rewrite X.
    destruct (write_series env s E v u tps r ty xs rest G U T I B L3 H HR (fop_apart _ _ _ FO)) as (s1 & vi & s2 & S1 & S2 & H2).
    rewrite S1, S2. cbn [hcomponents] in H2.
    destruct (IH s2 _ H2) as (s3 & S3 & H3); [now rewrite <- app_assoc|].
    exists s3. rewrite <- app_assoc in H3. auto.
Qed.

(** ** Other metadata *)
Definition meta_for (env : uenv) (q_of : R -> Qc) (cv : string * mval) (ek : entry * kind) : Prop :=
  exists pv, mval_of pv = snd cv /\
  (without "("%char (fst cv) /\ pyval_of q_of (gval_of (snd cv)) = Ok pv /\
   ek = (mkEntry ["World"] (split "|"%char (fst cv)) GENERIC None None (PGen (gval_of (snd cv))), KMeta (fst cv) pv) \/
   exists n u x, quantity_column (fst cv) n u /\ env u <> None /\ pv = match x with Some x => PNum (q_of x) | None => PNaN end /\
     (snd cv = MNaN /\ x = None \/ exists q, snd cv = MNum q /\ x = Some (num_of_q q)) /\
     ek = (mkEntry ["World"] (split "|"%char n) SCALAR (Some u) None (PScalar x), KMeta (fst cv) pv)).

Lemma put_meta_all env q_of : good_env env -> forall kvs EK, Forall2 (meta_for env q_of) kvs EK ->
  forall s E, holds env s E -> ForallOrdPairs aparte (E ++ map fst EK) ->
  exists s', put_all_meta env kvs s = (s', Ok tt) /\ holds env s' (E ++ map fst EK).
Proof.
  intros G. induction 1 as [|[c v] ek kvs EK P F IH]; intros s E H FO.
  - exists s. cbn [map]. rewrite app_nil_r. auto.
  - destruct P as (pv & MV & P). cbn [fst snd] in *.
    assert (X : exists s1, put_meta env c v s = (s1, Ok tt) /\ holds env s1 (E ++ [fst ek])).
    { unfold put_meta. destruct P as [(W & PV & ->)|(n & u & x & Q & U & PV & VX & ->)]; cbn [map fst] in *.
      - rewrite (has_unit_no _ W).
        destruct (write_generic env s E (HStr c) world [] (gval_of v) H eq_refl (split_ne c) (fop_apart _ _ _ FO)) as (s1 & vi & s2 & S1 & S2 & H2).
        exists s2. rewrite S1, S2. auto.
      - destruct (quantity_ok c n u Q) as (-> & -> & ->).
        destruct (write_scalar env s E (HStr n) u world [] x G U H eq_refl (split_ne n) (fop_apart _ _ _ FO)) as (s1 & vi & s2 & S1 & S2 & H2).
        exists s2. rewrite S1. destruct VX as [[-> ->]|(q & -> & ->)]; rewrite S2; auto. }
    destruct X as (s1 & S1 & H1). cbn [put_all_meta map]. rewrite S1.
    destruct (IH s1 _ H1) as (s2 & S2 & H2); [rewrite <- app_assoc; exact FO|].
    exists s2. rewrite <- app_assoc in H2. auto.
Qed.
