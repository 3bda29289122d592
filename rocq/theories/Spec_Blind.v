(** * Spec_Blind: cameras and atmospheres without a common wavelength (C135) *)
From Coq Require Import Reals List.
From Verif Require Import Base_XR Model_Db Model_Sensor.
Import ListNotations.
Open Scope R_scope.

(* none of the 1371 wavelengths of the file lies between the first and the last wavelength of the optics *)
Definition sees_nothing (s : sensor) (m : atm) : Prop :=
  exists lo hi, nth_error (s_owl s) 0 = Some lo /\ nth_error (s_owl s) (length (s_owl s) - 1) = Some hi /\
    forall i, (i < 1371)%nat -> m i 0%nat < lo \/ hi < m i 0%nat.
(* the wavelengths of the database: 0.3 to 14 micrometres in steps of 10 nm *)
Definition stored_wavelength (k : nat) : R := (0.3 + INR k / 100) / 10 ^ 6.
Definition database_wavelengths (m : atm) : Prop := forall i, (i < 1371)%nat -> m i 0%nat = stored_wavelength i.
