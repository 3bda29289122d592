(** * Spec_System: the inputs for which the system transfer function is meant
    to work. *)
From Coq Require Import Reals List.
From Verif Require Import Base_XR Base_Np Model_Geo Model_Scenario Model_Sensor.
Import ListNotations.
Open Scope R_scope.

(* distinct positive wavelengths, non-negative weights that do not all vanish *)
Definition good_spectrum (ps : list (R * R)) : Prop :=
  NoDup (map fst ps) /\ (forall p, In p ps -> 0 < fst p /\ 0 <= snd p) /\ 0 < Rsum (map snd ps).
(* aperture with relative obscuration below one, focal length, correlation
   lengths, wavefront error *)
Definition good_optics (s : sensor) : Prop :=
  0 < s_D s /\ s_eta s < 1 /\ s_f s <> 0 /\ s_Lx s <> 0 /\ s_Ly s <> 0 /\ 0 <= s_pv s.
(* turbulence is switched off, or the sensor is above the ground and the slant
   range reaches the ground of a spherical earth of radius 6378164 m *)
Definition good_path (c : scen) (slant_range : R) : Prop :=
  plain c Cn2At1m <= 0
  \/ (0 < slant_range /\ 0 <= altitude c <= slant_range /\ slant_range <= 2 * 6378164 + altitude c).
(* below the diffraction cutoff at every wavelength *)
Definition in_cutoff (D : R) (ps : list (R * R)) (u v : R) : Prop :=
  forall q, In q ps -> fst q * sqrt (u * u + v * v) <= D.
