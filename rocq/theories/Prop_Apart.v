(** C81, C82: several users of one parameter set.  Vocabulary: [Spec_Core.v], [Spec_Apart.v]. *)
From Coq Require Import String List ZArith Reals Bool Lia.
From Verif Require Import Base Units TimeModel Core Spec_Core Spec_Apart Apart Silent Examples.
Import ListNotations.
Local Open Scope string_scope.
Local Open Scope list_scope.

(** Whatever the order in which the users' calls are made, each user gets from their calls what
    they would get if nobody else made any. *)
Theorem C81_answers env s h u : reachable env s -> apart s h ->
  answers_to env u h s = answers env (calls u h) s.
Proof. exact (C81_answers_proof env s h u). Qed.
Print Assumptions C81_answers.

(** The order does not matter for the state that remains either. *)
Theorem C81_state env s h h' : reachable env s -> apart s h -> (forall u, calls u h' = calls u h) ->
  after_all env (map snd h') s = after_all env (map snd h) s.
Proof. exact (C81_state_proof env s h h'). Qed.
Print Assumptions C81_state.

(** Top|a and Top|b are written (views 0 and 1), Top is viewed (view 4), Other is a number (view 5).
    User 0 works on Top and Top|a, user 1 on Other; also with the calls of user 1 first. *)
Definition two_users_history : list op :=
  [pts (HStr "Top|a") "K" yrs3; pts (HStr "Top|b") "K" yrs3; pts (HStr "Top") "K" yrs3;
   OSetValues 0 (mkArr false [Some 10; Some 20; Some 30]%R);
   OSetValues 1 (mkArr false [Some 10; Some 20; Some 30]%R);
   OScalar (HStr "Other") "K" (HStr "World")].
Definition two_users : schedule :=
  [(0, OGetValues 4); (1, OSetValue 5 (Some 1%R)); (0, OSetItem 0 1 (Some 7%R)); (1, OGetValue 5); (0, OGetValues 4)].
Definition two_users' : schedule :=
  [(1, OSetValue 5 (Some 1%R)); (1, OGetValue 5); (0, OGetValues 4); (0, OSetItem 0 1 (Some 7%R)); (0, OGetValues 4)].
Example C81_instance : reachable ex_env (ex two_users_history) /\ apart (ex two_users_history) two_users /\
  (forall u, calls u two_users' = calls u two_users) /\
  succeeds ex_env (OGetValues 4) (ex two_users_history) /\ succeeds ex_env (OSetValue 5 (Some 1%R)) (ex two_users_history).
Proof.
  split; [eexists _, _; reflexivity|].
  assert (N4 : view_name (ex two_users_history) 4 = Some ["Top"]) by calc.
  assert (N0 : view_name (ex two_users_history) 0 = Some ["Top"; "a"]) by calc.
  assert (N5 : view_name (ex two_users_history) 5 = Some ["Other"]) by calc.
  assert (L : length (st_views (ex two_users_history)) = 6%nat) by calc.
  split; [|split; [|split; eexists; calc]].
  - revert N4 N0 N5 L. generalize (ex two_users_history). intros s N4 N0 N5 L. constructor.
    + intros u o I. rewrite L. simpl in I. repeat (destruct I as [I|I]; [inversion I; subst; eexists; split; [reflexivity|lia]|]). contradiction.
    + intros u u' o o' v v' I I' Ne W W' (_ & n & rest & H). simpl in I, I'.
      repeat (destruct I as [I|I]; [inversion I; subst; clear I; inversion W; subst; clear W;
        repeat (destruct I' as [I'|I']; [inversion I'; subst; clear I'; inversion W'; subst; clear W';
          first [now apply Ne | rewrite ?N4, ?N0, ?N5 in H; destruct H as [[A B]|[A B]]; inversion A; subst; discriminate]|]); contradiction|]).
      contradiction.
  - intros u. unfold calls, two_users', two_users. destruct u as [|[|u]]; reflexivity.
Qed.

(** Someone who only looks, through views of their own, is not noticed: whatever the others do
    (also with the same parameters, and requesting further views), they get what they would get if
    nobody had looked. *)
Theorem C82_unnoticed env s h u w : reachable env s -> observer u h -> w <> u ->
  answers_to env w h s = answers_to env w (without u h) s.
Proof. exact (C82_unnoticed_proof env s h u w). Qed.
Print Assumptions C82_unnoticed.

(** User 1 looks at Top (view 4) while user 0 writes its parts and requests and reads a view of Top
    of their own (view 8, after those of its parts). *)
Definition looked_at : schedule :=
  [(1, OGetValues 4); (0, OSetItem 0 1 (Some 7%R)); (1, OHandleGet 4 1); (0, pts (HStr "Top") "K" yrs3);
   (1, OGetValues 4); (0, OGetValues 8); (1, OHandleArray 4)].
Example C82_instance : reachable ex_env (ex two_users_history) /\ observer 1 looked_at /\
  succeeds ex_env (OGetValues 4) (ex two_users_history) /\
  succeeds ex_env (OGetValues 8) (ex (two_users_history ++ [OGetValues 4; OSetItem 0 1 (Some 7%R); pts (HStr "Top") "K" yrs3])).
Proof.
  split; [eexists _, _; reflexivity|]. split; [|split; eexists; calc].
  intros o I. exists 4%nat. split.
  - unfold looks_through. simpl in I.
    repeat (destruct I as [I|I]; [inversion I; subst; eauto 8|]). contradiction.
  - intros u' o' I' Ne W. simpl in I'.
    repeat (destruct I' as [I'|I']; [inversion I'; subst; first [now apply Ne | discriminate W]|]). contradiction.
Qed.
