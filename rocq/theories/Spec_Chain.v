(** * Spec_Chain: the imaging chain as physics: what each factor of the system
    transfer function should be for a given camera and scene. *)
From Coq Require Import Reals List.
From Verif Require Import Base_XR Base_Np Spec_Otf.
Import ListNotations.
Open Scope R_scope.

(* average over (wavelength, weight) pairs *)
Definition spectral_mean (ps : list (R * R)) (F : R -> R) : R :=
  Rsum (map (fun p => snd p * F (fst p)) ps) / Rsum (map snd ps).

(* pupil autocorrelation; eta is the linear obscuration *)
Definition aperture_mtf (D eta l u v : R) : R :=
  if Rlt_dec 0 eta
  then annulus_overlap eta (pupil_shift u v l D) / (PI * (1 - eta * eta))
  else disc_overlap 1 1 (pupil_shift u v l D) / PI.

(* transform of a uniform line of length a, a point if a = 0 *)
Definition line_ft (a x : R) : R := if Req_EM_T a 0 then 1 else smear_ft a x.

(* normally distributed line of sight, standard deviations sx and sy *)
Definition jitter_mtf_of (sx sy u v : R) : R := exp (- (2 * PI ^ 2 * ((sx * u) ^ 2 + (sy * v) ^ 2))).

(* random wavefront: phase variance pv given at wavelength pv_wl *)
Definition wavefront_mtf (pv pv_wl Lx Ly l u v : R) : R :=
  exp (- (pv * (pv_wl / l) ^ 2 * (1 - exp (- ((l * u / Lx) ^ 2 + (l * v / Ly) ^ 2))))).

(* Fried: exposure long or short against coherence diameter r, with a share
   exp(-drift/r) of short exposure *)
Definition fried (r l D a rho : R) : R :=
  if Rlt_dec 0 rho
  then exp (- 3.44 * Rpower (l * rho / r) (5 / 3) * (1 - a * Rpower (l * rho / D) (1 / 3)))
  else 1.
Definition turbulence_mtf (r l D drift u v : R) : R :=
  let rho := sqrt (u * u + v * v) in
  exp (- (drift / r)) * fried r l D (1 / 2) rho + (1 - exp (- (drift / r))) * fried r l D 0 rho.
(* coherence diameter at wavelength l from that at one micrometre *)
Definition r_at (r1 l : R) : R := r1 * Rpower (10 ^ 6 * l) (6 / 5).

(* Fried's coherence diameter, spherical wave: r^(-5/3) = 0.423 k^2 times the
   integral of cn2(z) (z/L)^(5/3) along the path of length L *)
Definition five_thirds (x : R) : R := if Rlt_dec 0 x then Rpower x (5 / 3) else 0.
