(** * Spec_Tables: sensors that no analysis accepts (C136) *)
From Coq Require Import Reals List.
From Verif Require Import Base_XR Model_Scenario Model_Sensor.
Import ListNotations.
Open Scope R_scope.

(* a transmission or efficiency table that does not fit its wavelengths *)
Definition malformed_tables (s : sensor) : Prop :=
  length (s_otr s) <> length (s_owl s) \/ s_qwl s = [] \/ length (s_qe s) <> length (s_qwl s).
(* what niirs and niirs5 write into a scenario for a band that begins at lo (metres) *)
Definition defaults_written (lo : R) (c c' : scen) : Prop :=
  (lo < 2.9 / 10 ^ 6 -> plain c' TargetReflectance = 0.15 /\ plain c' BackgroundReflectance = 0.07 /\ plain c' TargetTemperature = plain c TargetTemperature) /\
  (2.9 / 10 ^ 6 <= lo -> plain c' TargetReflectance = 0 /\ plain c' BackgroundReflectance = 0 /\ plain c' TargetTemperature = 280).
