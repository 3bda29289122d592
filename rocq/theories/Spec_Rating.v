(** * Spec_Rating: what niirs and niirs5 rate, in closed form.
    Mentions the records of the model, none of its functions. *)
From Coq Require Import Reals List.
From Verif Require Import Base_XR Base_Np Model_Scenario Model_Sensor Model_Rad Spec_Rad Spec_Met Spec_Trade.
Import ListNotations.
Open Scope R_scope.

(* photoelectrons from a scene of radiance L during the integration time asked for *)
Definition charge (s : sensor) (tr q : R -> R) (L : arow -> R) (rows : list arow) : R :=
  (trapezoid (map (fun a => electrons s (tr (a_wl a)) (q (a_wl a)) (a_wl a) (L a)) rows) (map a_wl rows) + s_dark s)
  * (s_int_time s * s_ntdi s).
(* the part of that time after which the well is as full as it may be *)
Definition share (s : sensor) (n : R) : R :=
  if Rlt_dec (s_max_fill s * s_max_n s) n then s_max_fill s * s_max_n s / n else 1.
(* signal-to-noise ratio of one frame: photon noise of the brighter of target and background, electronics *)
Definition frame_snr (s : sensor) (tgt bkg : R) : R :=
  let k := share s (Rmax tgt bkg) in k * (tgt - bkg) / sqrt (k * Rmax tgt bkg + electronic_noise s).

(* the general image quality equations, versions 3, 4 and 5; lengths in metres.  The published version 4
   (Leachtenauer et al., Applied Optics 36, 1997) has k = 0.344, pyBSM 0.334. *)
Definition rating3 (rer gsd h g snr : R) : R := 11.81 + 3.32 * log10 (rer / (gsd / inch)) - 1.48 * h - g / snr.
Definition rating4 (k rer gsd h g snr : R) : R :=
  let a := if Rle_dec 0.9 rer then 3.32 else 3.16 in
  let b := if Rle_dec 0.9 rer then 1.559 else 2.817 in
  10.251 - a * log10 (gsd / inch) + b * log10 rer - 0.656 * h - k * g / snr.
Definition rating5 (rer gsd snr : R) : R :=
  9.57 - 3.32 * log10 (gsd / inch) + 3.32 * (1 - exp (- 1.9 / snr)) * log10 rer - 2 * log10 rer ^ 4 - 1.8 / snr.
