(** * Spec_Columns: the columns of an atmosphere file (C134).
    Documentation of load_database_atmosphere: 0 wavelength, 1 transmission, 2 radiance emitted by the path, 3 radiance emitted by the
    surface, 4 sunlight scattered by the path, 5 sunlight reflected by the ground (of reflectance 0.15). *)
From Coq Require Import Reals List.
From Verif Require Import Base_XR Model_Db Model_Scenario Spec_Rad.
Import ListNotations.
Open Scope R_scope.

(* what arrives from a surface of reflectance r and temperature T in the wavelength of row i *)
Definition file_radiance (m : nat -> nat -> R) (r T : R) (i : nat) : R :=
  m i 2%nat + m i 4%nat + (1 - r) * planck (m i 0%nat) T * m i 1%nat + r / 0.15 * m i 5%nat.
(* two files that differ in the radiance emitted by the surface only *)
Definition same_but_surface (m m' : nat -> nat -> R) : Prop :=
  forall i j, (i < 1371)%nat -> In j [0; 1; 2; 4; 5]%nat -> m i j = m' i j.
(* two directories of such files: every request fails alike or gives two such files *)
Definition alike_but_surface (ld ld' : loader) : Prop :=
  forall alt range haze, (exists e, ld alt range haze = Err e /\ ld' alt range haze = Err e) \/
    (exists m m', ld alt range haze = Ok m /\ ld' alt range haze = Ok m' /\ same_but_surface m m').
