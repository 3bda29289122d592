(** * Spec_EdgeSystem: how fast the transfer function of a camera can change (C132). *)
From Coq Require Import Reals.
Open Scope R_scope.

(* change per W of the product of: an aperture with linear obscuration eta at wavelengths from lmin to lmax, a detector and a
   smear of the angular widths det and drift, a jitter of standard deviation jit, and a wavefront error of variance pv at the
   wavelength pv_wl with correlation length Lc *)
Definition roughness (W eta lmin lmax det jit drift pv pv_wl Lc : R) : R :=
  4 * (lmax / lmin) / (PI * (1 - Rmax 0 eta)) + PI * Rabs det * W / 2 + sqrt 2 * PI * Rabs jit * W + PI * Rabs drift * W / 2
  + pv * pv_wl ^ 2 / (lmin * Rabs Lc) * W.
