(** * Spec_Defaults: the optional parameters of Scenario as its documentation
    and its own test file list them (tests/scenario/test_scenario.py:16-22). *)
From Coq Require Import Reals List.
From Verif Require Import Model_Scenario Model_Defaults.
Import ListNotations.
Open Scope R_scope.

(* documented defaults: 0.15 "is the giqe standard"; 21 and 1.7e-14 are "the HV 5/7 profile value" *)
Definition documented (a : attr) : R :=
  match a with
  | AircraftSpeed => 0
  | TargetReflectance => 0.15
  | TargetTemperature => 295
  | BackgroundReflectance => 0.07
  | BackgroundTemperature => 293
  | HaWindSpeed => 21
  | Cn2At1m => 17 / 10 ^ 15
  end.
(* position among the optional parameters, counted from 0 *)
Definition position (s : slot) : nat :=
  match s with
  | Plain AircraftSpeed => 0 | Plain TargetReflectance => 1 | Plain TargetTemperature => 2
  | Plain BackgroundReflectance => 3 | Plain BackgroundTemperature => 4 | Plain HaWindSpeed => 5
  | Plain Cn2At1m => 6 | Interp => 7
  end.
(* the keywords of a call: each at most once *)
Definition once (kw : list (slot * arg)) : Prop := NoDup (map fst kw).
(* what the caller wrote for a parameter, by position or by keyword *)
Definition wrote (pos : list arg) (kw : list (slot * arg)) (s : slot) (v : arg) : Prop :=
  nth_error pos (position s) = Some v \/ In (s, v) kw.
Definition silent (pos : list arg) (kw : list (slot * arg)) (s : slot) : Prop :=
  forall v, ~ wrote pos kw s v.
(* no parameter is given by position and by keyword *)
Definition disjoint (pos : list arg) (kw : list (slot * arg)) : Prop :=
  forall s v, In (s, v) kw -> (length pos <= position s)%nat.
(* a program that does not assign attribute a *)
Definition unassigned (a : attr) (ops : list op) : Prop := forall o, In o ops -> forall r, o <> SetPlain a r.
