(** * Num_TestOtf: the transfer function models on the cases of
    /repo/tests/otf/test_otf.py.

    One Example per test function; a comment gives the line of the test.
    Left out: empty arrays (the models describe one grid point), and the cases
    whose expected value is the rounding error of sin(pi) or of a sum of unit
    vectors that cancel (3.9e-17, 1.5e-33, 1.3e-15): over the reals these are
    0, which is what the Examples marked "rounding" say. *)
From Coq Require Import Reals ZArith List Bool Lra Lia.
From Flocq Require Import Core.Raux.
From Interval Require Import Tactic.
From Verif Require Import Base_XR Base_Np Model_Geo Model_Otf Spec_Test Num_TestTac.
Import ListNotations.
Open Scope R_scope.

Ltac open_model :=
  cbv beta iota zeta delta
   [ bind rmap pydiv xopp xadd xsub inf_sgn xmul xdiv xsq xpown xsqrt xexp xsin xcos xacos xatan xpow
     xsinc Rsinc xnan_to_num xlt xle xeq xmax xmin b2x map2 bmap2 xsum Rsum xmaxl xminl xdiff xmids trapz
     map length combine seq fold_right fold_left tl andb negb filter fst snd Nat.eqb
     sdiv kdiv radial circular_aperture_OTF circular_aperture_OTF_with_defocus cte_OTF cte_OTF_xy defocus_OTF
     detector_OTF agg_phase agg_sum detector_OTF_with_aggregation diffusion_OTF_params diffusion_OTF drift_OTF
     gaussian_OTF jitter_OTF tdi_phase tdi_OTF turbulence_OTF wavefront_OTF wavefront_OTF_2
     wind_speed_turbulence_OTF select weighted_loop weighted_by_wavelength coherence_diameter
     hufnagel_valley_turbulence_profile r0_function traverse object_domain_defocus_radii qc
     dark_current_from_density image_domain_defocus_radii
     returns is_near all_near ].
Ltac evalm := open_model; repeat rdec.
Ltac conf := evalm; try reflexivity; try near_num; try (repeat constructor; near_num).
(* evaluate the outermost local definition, then forget how it was computed *)
Ltac let_step :=
  match goal with
  | |- context C [ let x := ?v in @?b x ] =>
      let T := type of v in
      let r := fresh "r" in let H := fresh "H" in
      evar (r : T); assert (H : v = r) by (open_model; repeat rdec; subst r; reflexivity);
      rewrite H; let r' := eval unfold r in r in change r with r'; clear H; clear r;
      let g := context C [b r'] in change g; cbv beta
  end.

Ltac by_steps := repeat (repeat let_step; cbv beta iota delta [bind kdiv pydiv negb];
  try match goal with
  | |- context [Reqb ?a ?b] =>
      first [ replace (Reqb a b) with true by (symmetry; apply Reqb_true; rnum)
            | replace (Reqb a b) with false by (symmetry; apply Reqb_false; rne) ]
  end).

(* choose the branches that depend on a literal 0 before anything is evaluated *)
Ltac zero_first := cbv beta zeta delta [bind kdiv pydiv negb];
  replace (Rltb 0 0) with false by (symmetry; apply Rltb_false; lra);
  replace (Reqb 0 0) with true by (symmetry; apply Reqb_true; lra);
  replace (Reqb 1 0) with false by (symmetry; apply Reqb_false; lra); cbv beta iota zeta.

(** ** TestOTFHelper *)
(* 33, 48, 64, 80  coherence_diameter *)
Example test_coherence_diameter_errors :
  coherence_diameter 0 [] [] = Err ValueError /\ coherence_diameter 0 [] [Fin 1] = Err ValueError
  /\ coherence_diameter 1 [] [] = Err ValueError
  /\ coherence_diameter 0 [Fin 1] [] = Err ZeroDivisionError
  /\ coherence_diameter 0 [Fin 1] [Fin 0] = Err ZeroDivisionError
  /\ coherence_diameter 0 [Fin 1] [Fin 1] = Err ZeroDivisionError.
Proof. repeat split; conf. Qed.
Example test_coherence_diameter_infinite :
  coherence_diameter 1 [Fin 1] [Fin 0] = Ok PInf /\ coherence_diameter 1 [Fin 1; Fin 2] [Fin 0] = Ok PInf
  /\ coherence_diameter 1 [Fin 1] [Fin 1] = Ok PInf /\ coherence_diameter 1 [Fin 2] [Fin 1] = Ok PInf.
Proof. repeat split; conf. Qed.
Example test_coherence_diameter :
  returns (is_near (/ 10 ^ 8) 0.23749058343491444) (coherence_diameter 1 [Fin 1; Fin 2] [Fin 1])
  /\ returns (is_near (/ 10 ^ 8) 0.5456100850379446) (coherence_diameter 2 [Fin 1; Fin 2] [Fin 1])
  /\ returns (is_near (/ 10 ^ 8) 0.15668535178821985) (coherence_diameter 1 [Fin 1; Fin 2] [Fin 2])
  /\ returns (is_near (/ 10 ^ 8) 0.17546491199555045) (coherence_diameter 1 [Fin 1; Fin 2; Fin 3] [Fin 1]).
Proof. repeat split; conf. Qed.
(* 112  hufnagel_valley_turbulence_profile *)
Example test_hufnagel_valley_turbulence_profile :
  is_near (/ 10 ^ 8) 0 (hufnagel_valley_turbulence_profile (Fin 1) 1 0)
  /\ is_near (/ 10 ^ 8) 0.9900498337491683 (hufnagel_valley_turbulence_profile (Fin 1) 0 1)
  /\ is_near (/ 10 ^ 8) 1 (hufnagel_valley_turbulence_profile (Fin 0) 1 1)
  /\ is_near (/ 10 ^ 8) 0.9900498337491683 (hufnagel_valley_turbulence_profile (Fin 1) 1 1)
  /\ is_near (/ 10 ^ 8) (-1.0100501670841677) (hufnagel_valley_turbulence_profile (Fin (-1)) (-1) (-1)).
Proof. repeat split; conf. Qed.
(* 128, 150, 192  weighted_by_wavelength; lambda wavelengths: wavelengths *)
Definition same (l : R) : res (list xr) := Ok [Fin l].
Definition twice (l : R) : res (list xr) := Ok [Fin (l * 2)].
Ltac open_w := unfold same, twice; conf.
Example test_weighted_by_wavelength_index_error :
  weighted_by_wavelength [] [] same = Err IndexError /\ weighted_by_wavelength [] [Fin 0] same = Err IndexError
  /\ weighted_by_wavelength [0] [] same = Err IndexError
  /\ weighted_by_wavelength [1; 2] [Fin 1] same = Err IndexError.
Proof. repeat split; open_w. Qed.
Example test_weighted_by_wavelength_nan :
  weighted_by_wavelength [0] [Fin 0] same = Ok [NaN] /\ weighted_by_wavelength [1] [Fin 0] same = Ok [NaN]
  /\ weighted_by_wavelength [1; 1] [Fin 0; Fin 0] same = Ok [NaN; NaN].
Proof. repeat split; open_w. Qed.
Example test_weighted_by_wavelength :
  returns (all_near (/ 10 ^ 8) [0]) (weighted_by_wavelength [0] [Fin 1] same)
  /\ returns (all_near (/ 10 ^ 8) [1]) (weighted_by_wavelength [1] [Fin 1] same)
  /\ returns (all_near (/ 10 ^ 8) [0.33333]) (weighted_by_wavelength [1] [Fin 1; Fin 2] same)
  /\ returns (all_near (/ 10 ^ 8) [1.66666667]) (weighted_by_wavelength [1; 2] [Fin 1; Fin 2] same)
  /\ returns (all_near (/ 10 ^ 8) [3.33333333]) (weighted_by_wavelength [1; 2] [Fin 1; Fin 2] twice).
Proof. repeat split; open_w. Qed.
(* 220, 237, 263, 291, 307 *)
Example test_object_domain_radii :
  returns (near 0 0) (object_domain_defocus_radii 10 1 1) /\ returns (near 0 0) (object_domain_defocus_radii 0 2 1)
  /\ returns (near 0 3.1) (object_domain_defocus_radii 10 1 2)
  /\ returns (near 0 (-3.1)) (object_domain_defocus_radii 10 2 1)
  /\ object_domain_defocus_radii 1 1 0 = Err ZeroDivisionError
  /\ object_domain_defocus_radii 1 0 1 = Err ZeroDivisionError
  /\ returns (fun _ => True) (object_domain_defocus_radii 1 1 1).
Proof. repeat split; conf; unfold near; try (rewrite Rabs_right by lra; interval); cbv [near]; interval. Qed.
Example test_dark_current_from_density :
  near 0 0 (dark_current_from_density 10 0 1) /\ near 0 0 (dark_current_from_density 10 2 0)
  /\ near 0 0 (dark_current_from_density 0 2 1) /\ near 0 12483018257999544000 (dark_current_from_density 1 1 2)
  /\ near 0 12483018257999544000 (dark_current_from_density 1 2 1).
Proof. repeat split; conf. Qed.
Example test_image_domain_defocus_radii :
  returns (near 0 0) (image_domain_defocus_radii 10 0 1) /\ returns (near 0 0) (image_domain_defocus_radii 0 2 1)
  /\ returns (near 0 1.55) (image_domain_defocus_radii 10 1 2)
  /\ returns (near 0 12.4) (image_domain_defocus_radii 10 2 1)
  /\ image_domain_defocus_radii 1 1 0 = Err ZeroDivisionError
  /\ returns (fun _ => True) (image_domain_defocus_radii 1 1 1).
Proof. repeat split; conf. Qed.

(** ** TestCTEOTF (544, 607) *)
Example test_cte_nan :
  cte_OTF 1 1 0 0 0 0 1 1 0 = NaN /\ cte_OTF 1 1 1 1 1 1 0 0 0 = NaN
  /\ cte_OTF 1 1 1 1 1 1 1 1 0 = NaN /\ cte_OTF 2 2 1 1 1 1 1 1 0 = NaN.
Proof. repeat split; conf. Qed.
Example test_cte :
  is_near (5 / 10 ^ 34) 1 (cte_OTF 1 1 0 0 1 1 1 1 1) /\ is_near (5 / 10 ^ 34) 1 (cte_OTF 1 1 1 1 0 0 0 1 1)
  /\ is_near (5 / 10 ^ 34) 2980.95798704 (cte_OTF 1 1 0 1 1 2 2 2 2)
  /\ is_near (5 / 10 ^ 34) 1 (cte_OTF 1 1 1 1 1 1 1 1 1).
Proof. repeat split; conf. Qed.

(** ** TestDefocusOTF (677): the test passes w_x, w_y, f in the places of D, w_x, w_y *)
Example test_defocus :
  is_near (5 / 10 ^ 34) 0.08480497 (defocus_OTF 1 1 0 0 1) /\ is_near (5 / 10 ^ 34) 0.08480497 (defocus_OTF 1 1 1 0 1)
  /\ is_near (5 / 10 ^ 34) (4.38638338 / 10 ^ 6) (defocus_OTF 1 1 0 2 1)
  /\ is_near (5 / 10 ^ 34) 0.00719188 (defocus_OTF 1 1 1 1 1).
Proof. repeat split; conf. Qed.

(** ** TestDetectorOTFWithAggregation (717, 775) *)
Example test_aggregation_nan :
  detector_OTF_with_aggregation 1 1 0 0 0 0 0 1 = Ok NaN /\ detector_OTF_with_aggregation 1 1 1 1 1 1 0 1 = Ok NaN
  /\ detector_OTF_with_aggregation 1 1 1 1 1 0 0 1 = Ok NaN /\ detector_OTF_with_aggregation 2 2 1 1 1 0 0 1 = Ok NaN.
Proof. repeat split; conf. Qed.
Example test_aggregation : returns (is_near (5 / 10 ^ 34) 1) (detector_OTF_with_aggregation 1 1 0 0 1 1 1 1).
Proof. conf. Qed.

(** ** TestDiffusionOTF (808, 865) *)
Example test_diffusion_nan : diffusion_OTF 1 1 0 2 2 1 = Ok NaN /\ diffusion_OTF 1 1 0 1 1 0 = Ok NaN
  /\ diffusion_OTF 2 2 0 1 1 0 = Ok NaN.
Proof.
  repeat split; evalm; replace (- 0 * 2) with 0 by lra; replace (- 0 * 1) with 0 by lra; rewrite ?exp_0;
    repeat rdec; reflexivity.
Qed.
Example test_diffusion :
  returns (is_near (5 / 10 ^ 34) 0.20116963) (diffusion_OTF 1 1 1 0 1 1)
  /\ returns (is_near (5 / 10 ^ 34) 0.85576647) (diffusion_OTF 1 1 1 1 1 2)
  /\ returns (is_near (5 / 10 ^ 34) 0.8199439) (diffusion_OTF 1 1 1 1 1 1).
Proof. repeat split; conf. Qed.

(** ** TestGaussianOTF (918) *)
Example test_gaussian :
  returns (is_near (5 / 10 ^ 34) 0.00186744) (gaussian_OTF 1 1 1 1)
  /\ returns (is_near (5 / 10 ^ 34) (1.50701728 / 10 ^ 7)) (gaussian_OTF 1 1 1 2)
  /\ returns (is_near (5 / 10 ^ 34) (1.21615567 / 10 ^ 11)) (gaussian_OTF 1 1 2 2).
Proof. repeat split; conf. Qed.

(** ** TestTDIOTF (943, 997) *)
Lemma steps_n (x y : R) (n : nat) : INR n - 1 < x * y <= INR n -> tdi_steps x y = n.
Proof.
  intros H. unfold tdi_steps. rewrite (Zceil_imp (Z.of_nat n)); [apply Nat2Z.id|].
  rewrite minus_IZR, <- INR_IZR_INZ. lra.
Qed.
Example test_tdi_nan :
  tdi_OTF 1 0 2 1 1 0 = (NaN, NaN) /\ tdi_OTF 1 1 1 1 0 1 = (NaN, NaN)
  /\ tdi_OTF 1 1 1 1 1 0 = (NaN, NaN) /\ tdi_OTF 2 1 1 1 1 0 = (NaN, NaN).
Proof.
  unfold tdi_OTF. rewrite (steps_n 2 1 2), (steps_n 1 1 1) by (cbn; lra).
  repeat split; conf.
Qed.
Example test_tdi :
  is_near (5 / 10 ^ 34) 1.99634659 (fst (tdi_OTF 1 1000 0.5 1 30 1000)) /\ snd (tdi_OTF 1 1000 0.5 1 30 1000) = Fin 0.
Proof.
  unfold tdi_OTF. rewrite (steps_n 0.5 1 1) by (cbn; lra). split.
  - evalm. cbv [INR]. near_num.
  - evalm. cbv [INR]. f_equal. rewrite Rmult_0_r, sin_0. lra.
Qed.

(** ** TestWavefrontOTF2 (1049) *)
Example test_wavefront_2 : is_near (5 / 10 ^ 34) 1 (wavefront_OTF_2 1 1 1 0)
  /\ is_near (5 / 10 ^ 34) 73.31931329 (wavefront_OTF_2 1 1 1 1).
Proof. repeat split; conf. Qed.

(** ** TestDetectorOTF (1564, 1609), TestDriftOTF (1656), TestJitterOTF (1712) *)
Example test_detector_nan : detector_OTF 1 1 0 0 0 = NaN /\ detector_OTF 1 1 1 1 0 = NaN /\ detector_OTF 2 2 1 1 0 = NaN.
Proof. repeat split; conf. Qed.
Example test_detector : is_near (5 / 10 ^ 34) 1 (detector_OTF 1 1 0 0 1).
Proof. conf. Qed.
Lemma sin_pi : sin (PI * (1 * 1)) = 0.
Proof. rewrite !Rmult_1_r. exact sin_PI. Qed.
(* rounding: the test expects 3.89817183e-17 and 1.51957436e-33 *)
Example test_detector_zeros :
  detector_OTF 1 1 1 0 1 = Fin 0 /\ detector_OTF 1 1 0 1 1 = Fin 0 /\ detector_OTF 1 1 1 1 1 = Fin 0.
Proof. repeat split; evalm; f_equal; replace (1 * 1 / 1) with (1 * 1) by lra; rewrite sin_pi; lra. Qed.
Example test_drift : is_near (5 / 10 ^ 34) 1 (drift_OTF 1 1 0 0).
Proof. conf. Qed.
Example test_drift_zeros : drift_OTF 1 1 1 0 = Fin 0 /\ drift_OTF 1 1 0 1 = Fin 0 /\ drift_OTF 1 1 1 1 = Fin 0.
Proof. repeat split; evalm; f_equal; rewrite sin_pi; lra. Qed.
Example test_jitter :
  is_near (5 / 10 ^ 20) 1 (jitter_OTF 1 1 0 0) /\ is_near (5 / 10 ^ 20) (2.67528799 / 10 ^ 9) (jitter_OTF 1 1 1 0)
  /\ is_near (5 / 10 ^ 20) (2.67528799 / 10 ^ 9) (jitter_OTF 1 1 0 1)
  /\ is_near (5 / 10 ^ 20) (7.15716584 / 10 ^ 18) (jitter_OTF 1 1 1 1).
Proof. repeat split; conf. Qed.

(** ** TestTurbulenceOTF (2029, 2049, 2079) *)
Example test_turbulence_nan :
  turbulence_OTF 1 1 0 0 (Fin 0) 0 = NaN /\ turbulence_OTF 1 1 1 0 (Fin 0) 0 = NaN
  /\ turbulence_OTF 1 1 0 1 (Fin 0) 0 = NaN /\ turbulence_OTF 1 1 0 0 (Fin 1) 0 = NaN
  /\ turbulence_OTF 1 1 0 0 (Fin 0) 1 = NaN /\ turbulence_OTF 1 1 1 0 (Fin 1) 0 = NaN
  /\ turbulence_OTF 1 1 0 1 (Fin 0) 1 = NaN.
Proof. repeat split; conf. Qed.
Example test_turbulence_inf :
  turbulence_OTF 1 1 1 0 (Fin 0) 1 = PInf /\ turbulence_OTF 1 1 1 0 (Fin 1) 1 = PInf.
Proof. repeat split; conf. Qed.
Example test_turbulence :
  is_near (5 / 10 ^ 20) 0 (turbulence_OTF 1 1 1 1 (Fin 0) 0) /\ is_near (5 / 10 ^ 20) 1 (turbulence_OTF 1 1 0 1 (Fin 1) 1)
  /\ is_near (5 / 10 ^ 20) 1 (turbulence_OTF 1 1 0 1 (Fin 1) 0)
  /\ is_near (5 / 10 ^ 20) 2.11830623 (turbulence_OTF 1 1 1 1 (Fin 1) 1).
Proof. repeat split; conf. Qed.

(** ** TestWindSpeedTurbulenceOTF (2128, 2150, 2199) *)
Example test_wind_nan :
  wind_speed_turbulence_OTF Py 1 1 0 0 (Fin 1) 0 0 = Ok NaN /\ wind_speed_turbulence_OTF Py 1 1 1 0 (Fin 1) 0 0 = Ok NaN
  /\ wind_speed_turbulence_OTF Py 1 1 0 0 (Fin 1) 1 0 = Ok NaN /\ wind_speed_turbulence_OTF Py 1 1 0 0 (Fin 1) 0 1 = Ok NaN
  /\ wind_speed_turbulence_OTF Py 1 1 1 0 (Fin 1) 1 1 = Ok NaN.
Proof. repeat split; conf. Qed.
Example test_wind_zero_division :
  wind_speed_turbulence_OTF Py 1 1 0 0 (Fin 0) 0 0 = Err ZeroDivisionError
  /\ wind_speed_turbulence_OTF Py 1 1 1 1 (Fin 0) 1 1 = Err ZeroDivisionError.
Proof. repeat split; conf. Qed.
Example test_wind :
  returns (is_near (5 / 10 ^ 20) 1) (wind_speed_turbulence_OTF Py 1 1 0 1 (Fin 1) 0 0)
  /\ returns (is_near (5 / 10 ^ 20) 1) (wind_speed_turbulence_OTF Py 1 1 0 1 (Fin 1) 1 0)
  /\ returns (is_near (5 / 10 ^ 20) 0.02636412) (wind_speed_turbulence_OTF Py 1 1 1 1 (Fin 1) 1 1).
Proof. repeat split; conf. Qed.

(** ** TestWavefrontOTF (2293, 2352) *)
Example test_wavefront_nan :
  wavefront_OTF 1 1 0 (Fin 0) 0 0 = NaN /\ wavefront_OTF 1 1 0 (Fin 1) 0 0 = NaN /\ wavefront_OTF 1 1 0 (Fin 0) 1 0 = NaN.
Proof. repeat split; conf. Qed.
Example test_wavefront :
  is_near (5 / 10 ^ 20) 1 (wavefront_OTF 1 1 1 (Fin 0) 0 0) /\ is_near (5 / 10 ^ 20) 0.36787944 (wavefront_OTF 1 1 1 (Fin 1) 0 0)
  /\ is_near (5 / 10 ^ 20) 1 (wavefront_OTF 1 1 1 (Fin 0) 1 0) /\ is_near (5 / 10 ^ 20) 1 (wavefront_OTF 1 1 1 (Fin 0) 0 1)
  /\ is_near (5 / 10 ^ 20) 0.36787944 (wavefront_OTF 1 1 1 (Fin 1) 1 0)
  /\ is_near (5 / 10 ^ 20) 0.36787944 (wavefront_OTF 1 1 1 (Fin 1) 0 1)
  /\ is_near (5 / 10 ^ 20) 1 (wavefront_OTF 1 1 1 (Fin 0) 1 1) /\ is_near (5 / 10 ^ 20) 1 (wavefront_OTF 1 1 0 (Fin 1) 1 1)
  /\ is_near (5 / 10 ^ 20) 0.42119275 (wavefront_OTF 1 1 1 (Fin 1) 1 1).
Proof. repeat split; conf. Qed.

(** ** TestCircularApertureOTF (2398, 2417, 2452) *)
Example test_aperture_zero_division :
  circular_aperture_OTF Py 1 1 0 0 0 = Err ZeroDivisionError /\ circular_aperture_OTF Py 1 1 0 1 0 = Err ZeroDivisionError
  /\ circular_aperture_OTF Py 1 1 0 0 1 = Err ZeroDivisionError /\ circular_aperture_OTF Py 1 1 0 1 1 = Err ZeroDivisionError.
Proof. repeat split; unfold circular_aperture_OTF, kdiv; rdec; reflexivity. Qed.
Example test_aperture_nan :
  circular_aperture_OTF Py 1 1 1 1 1 = Ok NaN.
Proof.
  unfold circular_aperture_OTF; by_steps; conf.
Qed.
Example test_aperture :
  returns (is_near (5 / 10 ^ 20) 0) (circular_aperture_OTF Py 1 1 1 0 0)
  /\ returns (is_near (5 / 10 ^ 20) 0) (circular_aperture_OTF Py 1 1 1 1 0)
  /\ returns (is_near (5 / 10 ^ 20) 0) (circular_aperture_OTF Py 1 1 1 1 0.5).
Proof.
  split; [|split].
  1-2: unfold circular_aperture_OTF; zero_first; conf.
  all: unfold circular_aperture_OTF; by_steps; conf.
Qed.
(** ** TestCircularApertureOTFWithDefocus (2496, 2533) *)
Example test_aperture_defocus :
  circular_aperture_OTF_with_defocus Py 1 1 0 1 0 0 = Err ZeroDivisionError
  /\ circular_aperture_OTF_with_defocus Py 1 1 1 0 0 0 = Err ZeroDivisionError
  /\ returns (is_near (5 / 10 ^ 20) 0) (circular_aperture_OTF_with_defocus Py 1 1 1 1 0 0)
  /\ returns (is_near (5 / 10 ^ 20) 0) (circular_aperture_OTF_with_defocus Py 1 1 1 1 0.5 0)
  /\ returns (is_near (5 / 10 ^ 20) 0) (circular_aperture_OTF_with_defocus Py 2 2 1 1 0.5 0).
Proof. repeat split; unfold circular_aperture_OTF_with_defocus; zero_first; conf. Qed.
