(** * Spec_Sim: image simulation, stated without the model *)
From Coq Require Import Reals List Permutation.
Import ListNotations.
Open Scope R_scope.

(** ** Reflectance calibration *)
(* r lies on the line through two neighbouring calibration points; only the
   outermost lines are extended beyond their points *)
Definition calibrated (cal : list (R * R)) (v r : R) : Prop :=
  exists x0 y0 x1 y1, In (x0, y0) cal /\ In (x1, y1) cal /\ x0 < x1 /\
    (forall p, In p cal -> fst p <= x0 \/ x1 <= fst p) /\
    (v < x0 -> forall p, In p cal -> x0 <= fst p) /\
    (x1 < v -> forall p, In p cal -> fst p <= x1) /\
    r = y0 + (y1 - y0) / (x1 - x0) * (v - x0).
Definition rising (cal : list (R * R)) : Prop :=
  forall p q, In p cal -> In q cal -> fst p < fst q -> snd p <= snd q.
Definition clip01 (r : R) : R := Rmax 0 (Rmin 1 r).

(** ** Complex numbers as pairs, expectation over finitely many outcomes *)
Definition cmul (x y : R * R) : R * R := (fst x * fst y - snd x * snd y, fst x * snd y + snd x * fst y).
Definition cadd (x y : R * R) : R * R := (fst x + fst y, snd x + snd y).
Definition csub (x y : R * R) : R * R := (fst x - fst y, snd x - snd y).
Definition cmod2 (x : R * R) : R := fst x * fst x + snd x * snd x.
Fixpoint mean {A} (om : list (R * A)) (f : A -> R) : R :=
  match om with [] => 0 | (p, x) :: om => p * f x + mean om f end.
(* (signal, noise) at one spatial frequency: signal power S > 0, noise power
   nsr * S, signal and noise uncorrelated *)
Definition uncorrelated (om : list (R * ((R * R) * (R * R)))) (S nsr : R) : Prop :=
  mean om (fun o => cmod2 (fst o)) = S /\ mean om (fun o => cmod2 (snd o)) = nsr * S /\
  mean om (fun o => fst (fst o) * fst (snd o) + snd (fst o) * snd (snd o)) = 0 /\
  mean om (fun o => snd (fst o) * fst (snd o) - fst (fst o) * snd (snd o)) = 0.
(* squared error of restoring the signal from h * signal + noise with g *)
Definition restoration_error (h g : R * R) (o : (R * R) * (R * R)) : R :=
  cmod2 (csub (fst o) (cmul g (cadd (cmul h (fst o)) (snd o)))).

(** ** 8-bit display *)
Definition display_level (lo hi x : R) : R := Rmax 0 (Rmin 255 (255 * (x - lo) / (hi - lo))).

(** ** Shot noise of rate lam with independent unit noise z: first and second moments *)
Definition shot_and_normal {A} (om : list (R * A)) (lam : R) (n z : A -> R) : Prop :=
  mean om (fun _ => 1) = 1 /\ mean om n = lam /\ mean om (fun d => n d * n d) = lam + lam * lam /\
  mean om z = 0 /\ mean om (fun d => z d * z d) = 1 /\ mean om (fun d => n d * z d) = 0.

(** ** Inputs for which simulate_image is meant to work *)
From Coq Require Import Sorted.
From Verif Require Import Base_XR Model_Scenario Model_Sensor Model_Rad Spec_Rad.
(* sensible numbers in wavelength order, and a white target produces a signal at some wavelength *)
Definition good_scene (s : sensor) (all : list arow) : Prop :=
  sound_rows all /\ StronglySorted Rlt (map a_wl all) /\
  exists a x y, In a all /\ in_band s a /\ reads (s_owl s) (s_otr s) (a_wl a) x /\ reads (s_qwl s) (s_qe s) (a_wl a) y /\
    0 < electrons s x y (a_wl a) (scene_radiance 1 300 a).
(* above the ground, at most one Earth diameter away *)
Definition good_geometry (c : scen) : Prop := 0 < altitude c /\ Rabs (ground_range c) <= 2 * 6378164.
(* at least two calibration points, for different pixel values *)
Definition good_calibration (pix refl : list R) : Prop := length pix = length refl /\ (2 <= length pix)%nat /\ NoDup pix.
(* the exposure is shortened, if need be, so that the brighter of a black and a
   white target at 300 K just fills the well *)
Definition exposure (s : sensor) (tr q : R -> R) (rows : list arow) : R :=
  let top := Rmax (collected s tr q rows (s_int_time s) 300 0) (collected s tr q rows (s_int_time s) 300 1) in
  if Rlt_dec (s_max_n s) top then s_max_n s / top * s_int_time s else s_int_time s.
(* first zero of the detector beyond the optical cutoff for every wavelength, no drift *)
Definition fine_detector (s : sensor) (all : list arow) : Prop :=
  s_dax s = 0 /\ s_day s = 0 /\ forall a, In a all -> in_band s a -> s_wx s * s_D s <= s_f s * a_wl a /\ s_wy s * s_D s <= s_f s * a_wl a.
(* the scene's pixels are wider than half the frame on which the PSF is computed *)
Definition coarse_scene (s : sensor) (c : scen) (gsd : R) (all : list arow) : Prop :=
  forall a, In a all -> in_band s a -> 750 * a_wl a / s_D s < 4 * atan (gsd / 2 / sqrt (altitude c * altitude c + ground_range c * ground_range c)).
