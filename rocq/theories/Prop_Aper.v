(** * Prop_Aper: C41-C45, the diffraction-limited and defocused aperture. *)
From Coq Require Import Reals Lra.
From Verif Require Import Base_XR Model_Geo Model_Otf Spec_Otf Proof_Lens Proof_Aper Proof_Defocus Proof_AperP.
Open Scope R_scope.

(** ** C41 *)
Theorem C41_unobscured_is_mtf : forall k u v l D eta,
  0 < l -> 0 < D -> eta <= 0 ->
  exists h, circular_aperture_OTF k u v l D eta = Ok (Fin h)
    /\ 0 <= h <= 1
    /\ (u = 0 -> v = 0 -> h = 1)
    /\ (D / l <= sqrt (u * u + v * v) -> h = 0).
Proof. exact circ_mtf. Qed.
Print Assumptions C41_unobscured_is_mtf.
Example C41_unobscured_is_mtf_ex : 0 < 1 / 10 ^ 6 /\ 0 < 0.3 /\ 0 <= 0.
Proof. lra. Qed.

Theorem C41_monotone_in_radius : forall k u v u' v' l D eta,
  0 < l -> 0 < D -> eta <= 0 -> u * u + v * v <= u' * u' + v' * v' ->
  exists h h', circular_aperture_OTF k u v l D eta = Ok (Fin h)
    /\ circular_aperture_OTF k u' v' l D eta = Ok (Fin h')
    /\ h' <= h
    /\ (u * u + v * v = u' * u' + v' * v' -> h' = h).
Proof. exact circ_mono. Qed.
Print Assumptions C41_monotone_in_radius.
Example C41_monotone_in_radius_ex : 3 * 3 + 4 * 4 <= (-5) * (-5) + 1 * 1.
Proof. lra. Qed.

(** ** C42 *)
Theorem C42_overlap_of_discs : forall k u v l D eta,
  0 < l -> 0 < D -> eta <= 0 ->
  circular_aperture_OTF k u v l D eta
  = Ok (Fin (disc_overlap 1 1 (pupil_shift u v l D) / PI)).
Proof. exact circ_disc. Qed.
Print Assumptions C42_overlap_of_discs.
Example C42_overlap_of_discs_ex : 0 < 1 / 10 ^ 6 /\ 0 < 0.3 /\ -1 <= 0.
Proof. lra. Qed.

(* the specification is an area: it is that of the disc when the copies coincide *)
Theorem C42_spec_sane : forall r, 0 < r -> disc_overlap r r 0 = PI * (r * r).
Proof. exact disc_overlap_full. Qed.
Print Assumptions C42_spec_sane.
Example C42_spec_sane_ex : 0 < 1 / 2.
Proof. lra. Qed.

(** ** C43 *)
Theorem C43_overlap_of_annuli : forall k u v l D eta,
  0 < l -> 0 < D -> 0 < eta < 1 ->
  circular_aperture_OTF k u v l D eta
  = Ok (Fin (annulus_overlap eta (pupil_shift u v l D) / (PI * (1 - eta * eta)))).
Proof. exact circ_annulus. Qed.
Print Assumptions C43_overlap_of_annuli.
Example C43_overlap_of_annuli_ex : 0 < 1 / 10 ^ 6 /\ 0 < 0.3 /\ 0 < 0.4 < 1.
Proof. lra. Qed.

Theorem C43_obscured_is_mtf : forall k u v l D eta,
  0 < l -> 0 < D -> 0 < eta < 1 ->
  exists h, circular_aperture_OTF k u v l D eta = Ok (Fin h)
    /\ 0 <= h <= 1
    /\ (u = 0 -> v = 0 -> h = 1)
    /\ (D / l <= sqrt (u * u + v * v) -> h = 0).
Proof. exact circ_annulus_mtf. Qed.
Print Assumptions C43_obscured_is_mtf.
Example C43_obscured_is_mtf_ex : 0 < 1 / 10 ^ 6 /\ 0 < 0.3 /\ 0 < 0.4 < 1.
Proof. lra. Qed.

(* a Python-float wavelength of 0 raises; obscuration 1 does not give a number *)
Theorem C43_boundary_cases :
  (forall u v D eta, circular_aperture_OTF Py u v 0 D eta = Err ZeroDivisionError)
  /\ (forall k u v l D, 0 < l -> 0 < D ->
       exists x, circular_aperture_OTF k u v l D 1 = Ok x /\ ~ is_fin x).
Proof. exact circ_boundary. Qed.
Print Assumptions C43_boundary_cases.

(** ** C44 *)
Theorem C44_zero_defocus : forall k u v l D f, D <> 0 ->
  circular_aperture_OTF_with_defocus k u v l D f 0 = circular_aperture_OTF k u v l D 0.
Proof. exact defocus_zero. Qed.
Print Assumptions C44_zero_defocus.
Example C44_zero_defocus_ex : 0.3 <> 0.
Proof. lra. Qed.

(** ** C45 *)
Theorem C45_defocus_finite : forall k u v l D f e, 0 < l -> 0 < D ->
  exists h, circular_aperture_OTF_with_defocus k u v l D f e = Ok (Fin h)
    /\ (u = 0 -> v = 0 -> h = 1) /\ (D / l <= sqrt (u * u + v * v) -> h = 0).
Proof. exact defocus_finite. Qed.
Print Assumptions C45_defocus_finite.
Example C45_defocus_finite_ex : 0 < 1 / 10 ^ 6 /\ 0 < 0.3.
Proof. lra. Qed.

Theorem C45_defocus_limit : forall k u v l D f, 0 < l -> 0 < D ->
  exists h0, circular_aperture_OTF k u v l D 0 = Ok (Fin h0) /\
  forall eps, 0 < eps -> exists delta, 0 < delta /\
    forall e, Rabs e < delta ->
      exists h, circular_aperture_OTF_with_defocus k u v l D f e = Ok (Fin h)
        /\ Rabs (h - h0) < eps.
Proof. exact defocus_limit. Qed.
Print Assumptions C45_defocus_limit.
Example C45_defocus_limit_ex : 0 < 1 / 10 ^ 6 /\ 0 < 0.3.
Proof. lra. Qed.
