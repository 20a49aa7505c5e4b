(** Specification vocabulary for rescaled data frames (C99). *)
From Coq Require Import String Ascii List ZArith QArith Qcanon Reals Bool Sorted.
From Verif Require Import Base Units TimeModel Core Filters Frame FrameAppend FrameWide FrameInterp.
Import ListNotations.
Local Open Scope string_scope.
Local Open Scope list_scope.

(** The frame with another function of its values; missing values stay missing. *)
Definition mapped (h : R -> R) (f : frame) : frame :=
  mkFrame (fr_times f) (map (fun c => (fst c, map (option_map h) (snd c))) (fr_data f)) (fr_cols f) (fr_meta f).
(** The frame in another unit of measure (a scale [a] and a zero point [b]). *)
Definition rescaled (a b : R) : frame -> frame := mapped (fun x => a * x + b)%R.

(** Steps of a work flow.  The results of [process_over] and [relative_to_ref_period_mean] are tables,
    made into frames again. *)
Inductive fop :=
| FFilter (keep rx hn : bool) (filters : list (string * parg))
| FRename (mapping : list (string * list (string * string)))
| FSetMeta (name : string) (a : parg)
| FAppend (msg : dupmsg) (other : frame)
| FInterpolate (targets : list Z) (ex : extrapolation)
| FResample (rule : string) (ex : extrapolation)
| FOver (cols : list string) (op : operation)
| FRelative (append : option string) (keep rx hn : bool) (filters : list (string * parg)).

(** [append] may also return a table of duplicates, with which the work flow ends. *)
Definition fdo (env : uenv) (shared : bool) (o : fop) (f : frame) : res frame :=
  match o with
  | FFilter keep rx hn fl => fr_filter keep rx hn fl f
  | FRename m => let (g, r) := rename m f in rbind r (fun _ => Ok g)
  | FSetMeta n a => set_meta n a f
  | FAppend msg other => rbind (fr_append msg f other) (fun r => match r with Joined g => Ok g | Inspect _ => Err EInvalid end)
  | FInterpolate ts ex => interpolate env shared ts ex f
  | FResample rule ex => resample env shared rule ex f
  | FOver cols op => process_over cols op f
  | FRelative ap keep rx hn fl => relative_to_ref_period_mean ap keep rx hn fl f
  end.
Fixpoint frun (env : uenv) (shared : bool) (l : list fop) (f : frame) : res frame :=
  match l with [] => Ok f | o :: l' => rbind (fdo env shared o f) (frun env shared l') end.

(** The work flow in the other unit: appended frames are rescaled, too.  Differences to a reference period
    have no zero point. *)
Fixpoint in_unit (a b : R) (l : list fop) : list fop :=
  match l with
  | [] => []
  | FAppend msg other :: l' => FAppend msg (rescaled a b other) :: in_unit a b l'
  | FRelative ap keep rx hn fl :: l' => FRelative ap keep rx hn fl :: in_unit a 0 l'
  | o :: l' => o :: in_unit a b l'
  end.
Fixpoint zero_point (b : R) (l : list fop) : R :=
  match l with [] => b | FRelative _ _ _ _ _ :: l' => zero_point 0 l' | _ :: l' => zero_point b l' end.

(** The times that a step asks for are in order. *)
Definition ordered (o : fop) : Prop := match o with FInterpolate ts _ => StronglySorted Z.lt ts | _ => True end.
(** Medians and other quantiles need a unit that does not turn the order around. *)
Definition keeps_order (a : R) (o : fop) : Prop := match o with FOver _ Mean => True | FOver _ _ => (0 < a)%R | _ => True end.
