(** * Spec_Session: statements about programs *)
From Coq Require Import Reals ZArith List Bool.
From Verif Require Import Base_XR Base_Np Model_Db Model_Scenario Model_Sensor Model_Met Model_Session.
Import ListNotations.
Open Scope R_scope.

(* assigning one of the four attributes that describe target and background *)
Definition describes_target (e : event) : bool :=
  match e with
  | UseScenario _ (SetPlain a _) =>
      match a with TargetReflectance | TargetTemperature | BackgroundReflectance | BackgroundTemperature => true | _ => false end
  | _ => false
  end.
(* statements that assign nothing: calls, and reading scenario.atm *)
Definition only_asks (e : event) : bool :=
  match e with CallNiirs _ _ _ | CallNiirs5 _ _ _ | CallSimulate _ _ _ _ | UseScenario _ ReadAtm => true | _ => false end.
(* the sensor a call works on *)
Definition works_on (e : event) (i : nat) : Prop :=
  match e with CallNiirs k _ _ | CallNiirs5 k _ _ | CallSimulate _ _ k _ | EditSensor k _ => k = i | UseScenario _ _ => False end.
Definition is_niirs5 (e : event) : Prop := match e with CallNiirs5 _ _ _ => True | _ => False end.
(* a scenario but for the description of target and background and the cached array *)
Definition same_geometry (c c' : scen) : Prop :=
  ihaze c' = ihaze c /\ altitude c' = altitude c /\ ground_range c' = ground_range c /\ interp c' = interp c /\
  forall a, In a [AircraftSpeed; HaWindSpeed; Cn2At1m] -> plain c' a = plain c a.
(* the scenario a statement works on *)
Definition uses (e : event) (j : nat) : Prop :=
  match e with CallNiirs _ k _ | CallNiirs5 _ k _ | CallSimulate _ _ _ k | UseScenario k _ => k = j | EditSensor _ _ => False end.
