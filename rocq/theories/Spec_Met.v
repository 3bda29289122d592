(** * Spec_Met: image quality, stated without the model *)
From Coq Require Import Reals List Sorted.
From Verif Require Import Spec_Rad.
Import ListNotations.
Open Scope R_scope.

Definition log10 (x : R) : R := ln x / ln 10.
Definition inch : R := 0.0254.

(* frequency of sample i of a slice; all samples are shifted by 1e-6 cycles per
   radian to stay away from zero frequency *)
Definition freq_of (df : R) (i : nat) : R := df * INR i + / 10 ^ 6.

(* image of a unit step, x pixels away from the edge: 1/2 plus the sine transform
   of MTF(w)/(pi w), integrated by the trapezoidal rule *)
Definition edge_at (mtf : list R) (df ifov x : R) : R :=
  1 / 2 + trapezoid (map (fun i => nth i mtf 0 * sin (2 * PI * freq_of df i * (ifov * x)) / (PI * freq_of df i))
                         (seq 0 (length mtf)))
                    (map (freq_of df) (seq 0 (length mtf))).

(* the k-th of the nine places where the overshoot is looked for: 1, 1.25, ..., 3 pixels *)
Definition overshoot_place (k : nat) : R := 1 + INR k / 4.

(* the curve through the samples (i df, mtf_i) passes through (w, y) *)
Definition on_curve (mtf : list R) (df w y : R) : Prop :=
  exists i t, (S i < length mtf)%nat /\ 0 <= t <= 1 /\ w = df * (INR i + t) /\
    y = (1 - t) * nth i mtf 0 + t * nth (S i) mtf 0.
Definition strictly_falling (mtf : list R) : Prop :=
  forall i j, (i < j < length mtf)%nat -> nth j mtf 0 < nth i mtf 0.
Definition never_rising (mtf : list R) : Prop :=
  forall i j, (i < j < length mtf)%nat -> nth j mtf 0 <= nth i mtf 0.

(** ** The scene of the image quality equations *)
From Verif Require Import Base_XR Model_Scenario Model_Sensor Model_Rad.

(* above 2.9 micron the target is 2 K warmer than its background and both are
   black; below, their reflectances are 15% and 7% *)
Definition emissive_band (s : sensor) : Prop := 2.9 / 10 ^ 6 <= nth 0 (s_owl s) 0.
Definition giqe_target (em : bool) (a : arow) : R := scene_radiance (if em then 0 else 0.15) 282 a.
Definition giqe_background (em : bool) (a : arow) : R := scene_radiance (if em then 0 else 0.07) 280 a.
Definition haze_radiance (a : arow) : R := a_path a + a_scat a.
(* photoelectrons per second that radiance L of the scene produces in a pixel *)
Definition scene_electrons (s : sensor) (tr q : R -> R) (L : arow -> R) (rows : list arow) : R :=
  trapezoid (map (fun a => q (a_wl a) * (s_wx s * s_wy s) *
      (s_t_filt s * (1 - (s_eta s) ^ 2) * tr (a_wl a) * cone (s_D s) (s_f s) * L a) / photon_energy (a_wl a)) rows)
    (map a_wl rows).
(* rows are the rows of all that the camera can see, in order *)
Definition seen_rows (s : sensor) (all rows : list arow) : Prop :=
  (forall a, In a rows <-> In a all /\ in_band s a) /\
  (StronglySorted Rlt (map a_wl all) -> StronglySorted Rlt (map a_wl rows)).

(** ** Inputs for which niirs and niirs5 are meant to work *)
From Verif Require Import Base_Np Model_Db Model_Met Spec_System.
Definition good_camera (s : sensor) : Prop :=
  physical s /\ sorted_tables s /\ good_optics s /\ 0 < s_f s /\ 0 < s_px s /\ 0 < s_py s.
(* sensible numbers in wavelength order, and the camera responds to the target at some wavelength *)
Definition good_atmosphere (s : sensor) (em : bool) (all : list arow) : Prop :=
  sound_rows all /\ StronglySorted Rlt (map a_wl all) /\
  exists a x y, In a all /\ in_band s a /\ reads (s_owl s) (s_otr s) (a_wl a) x /\ reads (s_qwl s) (s_qe s) (a_wl a) y /\
    0 < electrons s x y (a_wl a) (giqe_target em a).
(* the file that the scenario asks for *)
Definition loaded (ni it : loader) (c : scen) (interp : bool) (m : atm) : Prop :=
  (if interp then it else ni) (altitude c) (ground_range c) (ihaze c) = Ok m.
Definition with_frames (s : sensor) (n : R) : sensor := {|
  s_D := s_D s; s_f := s_f s; s_px := s_px s; s_py := s_py s; s_wx := s_wx s; s_wy := s_wy s; s_eta := s_eta s;
  s_owl := s_owl s; s_otr := s_otr s; s_qwl := s_qwl s; s_qe := s_qe s;
  s_int_time := s_int_time s; s_dark := s_dark s; s_other_irr := s_other_irr s; s_read := s_read s; s_max_n := s_max_n s;
  s_max_fill := s_max_fill s; s_bits := s_bits s; s_ntdi := s_ntdi s;
  s_T_shield := s_T_shield s; s_T_opt := s_T_opt s; s_e_opt := s_e_opt s; s_t_filt := s_t_filt s;
  s_T_filt := s_T_filt s; s_e_filt := s_e_filt s;
  s_sx := s_sx s; s_sy := s_sy s; s_dax := s_dax s; s_day := s_day s; s_pv := s_pv s; s_pv_wl := s_pv_wl s;
  s_Lx := s_Lx s; s_Ly := s_Ly s; s_other_noise := s_other_noise s; s_kernel := s_kernel s; s_frames := n |}.

(* what niirs and niirs5 should report about photon noise: pn from the haze in front
   of the scene, sn from the scene itself, together that of the brighter of
   target and background *)
Definition split_noise (s : sensor) (all : list arow) (em : bool) (ct : contrast) : Prop :=
  exists rows, seen_rows s all rows /\ forall tr q, response_curves s tr q ->
  exists t pn sn, m_int_time (ct_snr ct) = Fin t /\ 0 <= t <= s_int_time s /\
    ct_path_noise ct = Fin pn /\ ct_scene_noise ct = Fin sn /\ 0 <= pn /\ 0 <= sn /\
    pn * pn = scene_electrons s tr q haze_radiance rows * t * s_ntdi s /\
    pn * pn + sn * sn = Rmax (scene_electrons s tr q (giqe_target em) rows) (scene_electrons s tr q (giqe_background em) rows) * t * s_ntdi s.
(* same atmosphere and geometry, cache untouched *)
Definition same_route (c c' : scen) : Prop :=
  ihaze c' = ihaze c /\ altitude c' = altitude c /\ ground_range c' = ground_range c /\ interp c' = interp c /\ cache c' = cache c.
