(** Model of openscm/adapters/__init__.py (the adapter base class and [load_adapter]) and
    openscm/core/__init__.py ([OpenSCM]). *)
From Coq Require Import String List Bool.
From Verif Require Import Base.
Import ListNotations.
Local Open Scope string_scope.
Local Open Scope list_scope.

(** ** [load_adapter] (adapters/__init__.py 179-230) *)

(** [_loaded_adapters]: class objects, here numbers, by name. (adapters/__init__.py 13) *)
Definition adapters := list (string * nat).

(** [imported]: the class object that [from .dice import DICE] gives at this moment, [None]
    for ImportError. ([load_adapter], adapters/__init__.py 179-230) *)
Definition load_adapter (imported : option nat) (name : string) (loaded : adapters)
    : adapters * res nat :=
  match alookup name loaded with
  | Some c => (loaded, Ok c)
  | None =>
    if String.eqb name "DICE" then
      match imported with
      | Some c => (loaded ++ [(name, c)], Ok c)
      | None => (loaded, Err EAdapterNeedsModule)
      end
    else (loaded, Err EKeyError)
  end.

(** ** The base class [Adapter] (adapters/__init__.py 16-176) and [OpenSCM]
    (core/__init__.py 16-116)

    The abstract methods are functions on a state [W] (the parameter sets and the attributes
    of the concrete adapter); [h_start_time] is the assignment
    [self._current_time = self._parameters.generic("Start Time").value] (line 97).  An
    execution log, which Python does not have, records the calls of the abstract methods and
    whether they returned. *)
Section Adapter.
Variable W : Type.

(** The abstract methods (adapters/__init__.py 118-176) and line 97 *)
Record hooks := mkHooks {
  h_initialize_model : W -> W * res unit;
  h_initialize_model_input : W -> W * res unit;
  h_initialize_run_parameters : W -> W * res unit;
  h_start_time : W -> W * res unit;
  h_reset : W -> W * res unit;
  h_run : W -> W * res unit;
  h_step : W -> W * res unit }.

(** Calls of these methods (adapters/__init__.py 72-115) *)
Inductive event := EvInitializeModel | EvModelInput | EvRunParameters | EvReset | EvRun | EvStep.

(** [Adapter] (adapters/__init__.py 16-56) *)
Record adapter := mkAdapter {
  a_world : W;
  a_initialized : bool;
  a_log : list (event * bool) }.

(** [Adapter.__init__] (41-56) *)
Definition new_adapter (w : W) : adapter := mkAdapter w false [].

(** Whether a call returned (for the log of calls of adapters/__init__.py 72-115) *)
Definition returned {A} (r : res A) : bool := match r with Ok _ => true | Err _ => false end.

(** Call an abstract method. (adapters/__init__.py 72-115) *)
Definition call (h : W -> W * res unit) (e : event) (a : adapter) : adapter * res unit :=
  let (w, r) := h (a_world a) in
  (mkAdapter w (a_initialized a) (a_log a ++ [(e, returned r)]), r).

(** One statement after the other (adapters/__init__.py 71-98) *)
Definition then_do (x : adapter * res unit) (f : adapter -> adapter * res unit) : adapter * res unit :=
  match x with
  | (a, Ok _) => f a
  | (a, Err e) => (a, Err e)
  end.

Variable H : hooks.

(** [if not self._initialized: self._initialize_model(); self._initialized = True]
    (71-73 and 84-86) *)
Definition ensure_initialized (a : adapter) : adapter * res unit :=
  if a_initialized a then (a, Ok tt)
  else then_do (call (h_initialize_model H) EvInitializeModel a)
         (fun a => (mkAdapter (a_world a) true (a_log a), Ok tt)).

(** [initialize_model_input] (64-75) *)
Definition initialize_model_input (a : adapter) : adapter * res unit :=
  then_do (ensure_initialized a) (call (h_initialize_model_input H) EvModelInput).

(** [initialize_run_parameters] (77-88) *)
Definition initialize_run_parameters (a : adapter) : adapter * res unit :=
  then_do (ensure_initialized a) (call (h_initialize_run_parameters H) EvRunParameters).

(** [reset] (90-98) *)
Definition adapter_reset (a : adapter) : adapter * res unit :=
  let (w, r) := h_start_time H (a_world a) in
  let a := mkAdapter w (a_initialized a) (a_log a) in
  match r with
  | Err e => (a, Err e)
  | Ok _ => call (h_reset H) EvReset a
  end.

(** [run] (100-104), [step] (106-116) *)
Definition adapter_run (a : adapter) : adapter * res unit := call (h_run H) EvRun a.
(** [step] (adapters/__init__.py 106-116) *)
Definition adapter_step (a : adapter) : adapter * res unit := call (h_step H) EvStep a.

(** [OpenSCM.reset_stepping] (92-98), [OpenSCM.run] (100-105), [OpenSCM.step] (107-116) *)
Definition scm_reset_stepping (a : adapter) : adapter * res unit :=
  then_do (then_do (initialize_model_input a) initialize_run_parameters) adapter_reset.
(** [OpenSCM.run] (core/__init__.py 100-105) *)
Definition scm_run (a : adapter) : adapter * res unit := then_do (scm_reset_stepping a) adapter_run.
(** [OpenSCM.step] (core/__init__.py 107-116) *)
Definition scm_step (a : adapter) : adapter * res unit := adapter_step a.

(** Calls a user can make: methods of the adapter, methods of [OpenSCM].
    (adapters/__init__.py 64-116; core/__init__.py 92-116) *)
Inductive acall :=
| AModelInput | ARunParameters | AReset | ARun | AStep
| SResetStepping | SRun | SStep.

(** One of these calls (the same lines) *)
Definition do_call (c : acall) (a : adapter) : adapter * res unit :=
  match c with
  | AModelInput => initialize_model_input a
  | ARunParameters => initialize_run_parameters a
  | AReset => adapter_reset a
  | ARun => adapter_run a
  | AStep => adapter_step a
  | SResetStepping => scm_reset_stepping a
  | SRun => scm_run a
  | SStep => scm_step a
  end.

(** A sequence of calls, continuing after exceptions. (adapters/__init__.py 64-116) *)
Definition do_calls (a : adapter) (cs : list acall) : adapter :=
  fold_left (fun a c => fst (do_call c a)) cs a.

End Adapter.
