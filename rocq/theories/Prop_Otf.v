(** * Prop_Otf: properties C46-C51, C54-C58, C62, C63. *)
From Coq Require Import Reals Lra Lia List ZArith.
From Flocq Require Import Core.Raux.
From Coquelicot Require Import Coquelicot.
From Verif Require Import Base_XR Base_Np Model_Geo Model_Otf Spec_Otf Proof_Otf Proof_Turb Proof_OtfX Num_Otf.
Open Scope R_scope.

(** ** C46 *)
Theorem C46_cte_range : forall u v px py nx ny ph e f,
  f <> 0 -> 0 <= ph * nx -> 0 <= ph * ny -> e <= 1 ->
  exists h, cte_OTF u v px py nx ny ph e f = Fin h /\ 0 < h <= 1
    /\ (u = 0 -> v = 0 -> h = 1) /\ (e = 1 -> h = 1).
Proof. exact cte_range. Qed.
Print Assumptions C46_cte_range.

Theorem C46_cte_periodic : forall u v px py nx ny ph e f (m1 m2 : Z),
  f <> 0 -> px <> 0 -> py <> 0 ->
  cte_OTF (u + IZR m1 * (f / px)) (v + IZR m2 * (f / py)) px py nx ny ph e f
  = cte_OTF u v px py nx ny ph e f.
Proof. exact cte_periodic. Qed.
Print Assumptions C46_cte_periodic.

Theorem C46_cte_transfers_compose : forall u v px py nx1 ny1 nx2 ny2 ph e f, f <> 0 ->
  cte_OTF u v px py (nx1 + nx2) (ny1 + ny2) ph e f
  = xmul (cte_OTF u v px py nx1 ny1 ph e f) (cte_OTF u v px py nx2 ny2 ph e f).
Proof. exact cte_compose. Qed.
Print Assumptions C46_cte_transfers_compose.

Theorem C46_cte_at_nyquist : forall px py nx ny ph e f, f <> 0 -> px <> 0 -> py <> 0 ->
  cte_OTF (f / (2 * px)) 0 px py nx ny ph e f = Fin (exp (- 2 * ph * nx * (1 - e)))
  /\ cte_OTF 0 (f / (2 * py)) px py nx ny ph e f = Fin (exp (- 2 * ph * ny * (1 - e))).
Proof. exact cte_nyquist. Qed.
Print Assumptions C46_cte_at_nyquist.

Theorem C46_cte_at_half_nyquist : forall px py nx ny ph e f, f <> 0 -> px <> 0 -> py <> 0 ->
  cte_OTF (f / (4 * px)) (f / (4 * py)) px py nx ny ph e f = Fin (exp (- ph * (nx + ny) * (1 - e))).
Proof. exact cte_quarter. Qed.
Print Assumptions C46_cte_at_half_nyquist.

(* a transfer efficiency below one really attenuates: half the sampling
   frequency, one transfer, two phases, efficiency 1/2 gives exp(-2) *)
Example C46_example : cte_OTF (1 / 2) 0 1 1 1 1 2 (1 / 2) 1 = Fin (exp (- 2)).
Proof.
  rewrite cte_fin by lra. unfold ctex. f_equal. rewrite <- exp_plus. f_equal.
  replace (2 * PI * (1 * (1 / 2)) / 1) with PI by field.
  replace (2 * PI * (1 * 0) / 1) with 0 by field. rewrite cos_PI, cos_0. lra.
Qed.

(** ** C47 *)
Theorem C47_jitter_mtf : forall u v u' v' sx sy, Rabs u <= Rabs u' -> Rabs v <= Rabs v' ->
  exists h h', jitter_OTF u v sx sy = Fin h /\ jitter_OTF u' v' sx sy = Fin h'
    /\ 0 < h <= 1 /\ h' <= h /\ (u = 0 -> v = 0 -> h = 1)
    /\ (sx <> 0 -> Rabs u < Rabs u' -> v = v' -> h' < h)
    /\ jitter_OTF (- u) v sx sy = Fin h /\ jitter_OTF u (- v) sx sy = Fin h.
Proof. exact jitter_mtf. Qed.
Print Assumptions C47_jitter_mtf.

Theorem C47_independent_jitters_add_in_quadrature : forall u v sx1 sy1 sx2 sy2,
  xmul (jitter_OTF u v sx1 sy1) (jitter_OTF u v sx2 sy2)
  = jitter_OTF u v (sqrt (sx1 * sx1 + sx2 * sx2)) (sqrt (sy1 * sy1 + sy2 * sy2)).
Proof. exact jitter_rss. Qed.
Print Assumptions C47_independent_jitters_add_in_quadrature.

(* the second derivative at zero frequency is -(2 pi)^2 times the variance *)
Theorem C47_curvature_is_variance : forall v sx sy,
  exists h, (forall u, jitter_OTF u v sx sy = Fin (h u))
    /\ (v = 0 -> is_derive_n h 2 0 (- (4 * (PI * PI) * (sx * sx)))).
Proof. exact jitter_curvature. Qed.
Print Assumptions C47_curvature_is_variance.

(* frequencies in units of the reciprocal jitter, both axes *)
Theorem C47_jitter_value : forall s t sx sy, sx <> 0 -> sy <> 0 ->
  jitter_OTF (s / (2 * PI * sx)) (t / (2 * PI * sy)) sx sy = Fin (exp (- (s * s + t * t) / 2)).
Proof. exact jitter_units. Qed.
Print Assumptions C47_jitter_value.

Example C47_example : jitter_OTF (1 / PI) 0 1 1 = Fin (exp (- 2)) /\ Rabs 0 <= Rabs (1 / PI).
Proof.
  split; [|rewrite Rabs_R0; apply Rabs_pos]. rewrite jitter_fin. do 2 f_equal. field.
  generalize PI_RGT_0. lra.
Qed.

(** ** C48 *)
Theorem C48_detector_is_transform_of_pixel : forall u v wx wy f, f <> 0 -> wx <> 0 -> wy <> 0 ->
  detector_OTF u v wx wy f = Fin (smear_ft (wx / f) u * smear_ft (wy / f) v).
Proof. exact detector_is_pixel_ft. Qed.
Print Assumptions C48_detector_is_transform_of_pixel.

Theorem C48_detector_bounds_and_zeros : forall u v wx wy f, f <> 0 ->
  exists h, detector_OTF u v wx wy f = Fin h /\ Rabs h <= 1
    /\ (u = 0 -> v = 0 -> h = 1)
    /\ (forall m : Z, wx <> 0 -> m <> 0%Z -> u = IZR m * (f / wx) -> h = 0)
    /\ (forall m : Z, wy <> 0 -> m <> 0%Z -> v = IZR m * (f / wy) -> h = 0).
Proof. exact detector_bounds. Qed.
Print Assumptions C48_detector_bounds_and_zeros.

Theorem C48_zero_focal_length : forall u v wx wy, ~ is_fin (detector_OTF u v wx wy 0).
Proof. exact detector_f0. Qed.
Print Assumptions C48_zero_focal_length.

Example C48_example : detector_OTF (1 / 2) 0 2 3 2 = Fin (2 / PI).
Proof.
  rewrite detector_fin by lra. f_equal.
  replace (2 * (1 / 2) / 2) with (1 / 2) by field. replace (3 * 0 / 2) with 0 by field.
  rewrite Rsinc_0, Rsinc_nz by lra. replace (PI * (1 / 2)) with (PI / 2) by field. rewrite sin_PI2.
  generalize PI_RGT_0; intros. field. lra.
Qed.

(** ** C49 *)
Theorem C49_one_pixel : forall u v wx wy px py f, f <> 0 ->
  detector_OTF_with_aggregation u v wx wy px py f 1 = Ok (detector_OTF u v wx wy f).
Proof. exact agg_one. Qed.
Print Assumptions C49_one_pixel.

Theorem C49_full_fill_is_one_big_detector : forall u v wx wy f n, f <> 0 -> (0 < n)%nat ->
  detector_OTF_with_aggregation u v wx wy wx wy f n
  = Ok (detector_OTF u v (INR n * wx) (INR n * wy) f).
Proof. exact agg_full_fill. Qed.
Print Assumptions C49_full_fill_is_one_big_detector.

Theorem C49_bounded : forall u v wx wy px py f n, f <> 0 -> (0 < n)%nat ->
  exists h, detector_OTF_with_aggregation u v wx wy px py f n = Ok (Fin h) /\ Rabs h <= 1
   /\ (u = 0 -> v = 0 -> h = 1).
Proof. exact agg_bound. Qed.
Print Assumptions C49_bounded.

Theorem C49_no_pixels_raises : forall u v wx wy px py f,
  detector_OTF_with_aggregation u v wx wy px py f 0 = Err ZeroDivisionError.
Proof. exact agg_zero. Qed.
Print Assumptions C49_no_pixels_raises.

(* for every pitch: the response of one detector times the array factor
   sin(n d)/(n sin d) of each axis *)
Theorem C49_array_factor : forall u v wx wy px py f n, f <> 0 -> (0 < n)%nat ->
  exists h d ax ay, detector_OTF_with_aggregation u v wx wy px py f n = Ok (Fin h)
    /\ detector_OTF u v wx wy f = Fin d /\ h = ax * ay * d
    /\ INR n * sin (PI * (px * u / f)) * ax = sin (INR n * (PI * (px * u / f)))
    /\ INR n * sin (PI * (py * v / f)) * ay = sin (INR n * (PI * (py * v / f))).
Proof. exact agg_array. Qed.
Print Assumptions C49_array_factor.

(* where sin d = 0 all detectors are in phase *)
Theorem C49_in_phase : forall wx wy px py f n (m1 m2 : Z),
  f <> 0 -> px <> 0 -> py <> 0 -> Nat.odd n = true ->
  detector_OTF_with_aggregation (IZR m1 * (f / px)) (IZR m2 * (f / py)) wx wy px py f n
  = Ok (detector_OTF (IZR m1 * (f / px)) (IZR m2 * (f / py)) wx wy f).
Proof. exact agg_in_phase. Qed.
Print Assumptions C49_in_phase.

Example C49_example : detector_OTF_with_aggregation (1 / 2) 0 1 1 1 1 1 2 = Ok (Fin 0).
Proof.
  rewrite agg_full_fill by (try lra; lia). rewrite detector_fin by lra. do 2 f_equal.
  replace (INR 2 * 1 * (1 / 2) / 1) with (IZR 1) by (simpl; field).
  rewrite Rsinc_int_zero by discriminate. ring.
Qed.

Example C49_array_example : 2 <> 0 /\ (0 < 3)%nat /\ Nat.odd 3 = true.
Proof. split; [lra|]. split; [lia|reflexivity]. Qed.

(** ** C50 *)
Theorem C50_diffusion_mtf : forall u v u' v' alpha ald al0 f,
  f <> 0 -> 0 < al0 -> 0 < alpha -> 0 < ald -> u * u + v * v <= u' * u' + v' * v' ->
  exists h h', diffusion_OTF u v alpha ald al0 f = Ok (Fin h)
    /\ diffusion_OTF u' v' alpha ald al0 f = Ok (Fin h')
    /\ 0 < h <= 1 /\ (u = 0 -> v = 0 -> h = 1) /\ h' <= h.
Proof. exact diffusion_mtf. Qed.
Print Assumptions C50_diffusion_mtf.

(* the diffusion length shrinks with frequency: 1/L^2 = 1/L0^2 + (2 pi rho/f)^2 *)
Theorem C50_diffusion_value : forall u v alpha ald al0 f, f <> 0 -> 0 < al0 -> 0 < alpha -> 0 < ald ->
  exists L, 0 < L <= al0 /\ / (L * L) = / (al0 * al0) + (2 * PI / f) * (2 * PI / f) * (u * u + v * v)
    /\ diffusion_OTF u v alpha ald al0 f
       = Ok (Fin ((1 - exp (- (alpha * ald)) / (1 + alpha * L)) / (1 - exp (- (alpha * ald)) / (1 + alpha * al0)))).
Proof. exact diffusion_value. Qed.
Print Assumptions C50_diffusion_value.

Example C50_example : 1 <> 0 /\ 0 < 2 /\ 0 < 3 /\ 0 < 1 /\ 0 * 0 + 0 * 0 <= 1 * 1 + 0 * 0
  /\ exists h, diffusion_OTF 1 0 3 1 2 1 = Ok (Fin h) /\ h < 1.
Proof.
  repeat split; try lra.
  destruct (diffusion_fin 1 0 3 1 2 1) as (E & B & P); try lra.
  cbv zeta in *. rewrite E. eexists; split; [reflexivity|].
  set (al := sqrt _) in *.
  assert (L : al < 2).
  { replace 2 with (sqrt (2 * 2)) by (apply sqrt_square; lra). apply sqrt_lt_1_alt.
    replace (1 * 1 + 0 * 0) with 1 by ring. rewrite sqrt_1.
    generalize PI_RGT_0; intros.
    assert (Q : 0 < 2 * PI * 1 / 1 * (2 * PI * 1 / 1)) by (unfold Rdiv; rewrite Rinv_1, !Rmult_1_r; nra).
    set (q := 2 * PI * 1 / 1 * (2 * PI * 1 / 1)) in *.
    split; [left; apply Rdiv_lt_0_compat; lra|].
    apply Rmult_lt_reg_r with (1 / (2 * 2) + q); [lra|]. unfold Rdiv at 1.
    rewrite Rmult_assoc, Rinv_l by lra. lra. }
  apply Rmult_lt_reg_r with (dpar 2 3 1); [lra|]. unfold Rdiv. rewrite Rmult_assoc, Rinv_l by lra.
  rewrite Rmult_1_l, Rmult_1_r. unfold dpar.
  assert (exp (- (3) * 1) / (1 + 3 * 2) < exp (- (3) * 1) / (1 + 3 * al)); [|lra].
  apply Rmult_lt_compat_l; [apply exp_pos|]. apply Rinv_lt_contravar; nra.
Qed.

(** ** C51 *)
Theorem C51_drift_is_transform_of_smear : forall u v ax ay, ax <> 0 -> ay <> 0 ->
  drift_OTF u v ax ay = Fin (smear_ft ax u * smear_ft ay v).
Proof. exact drift_is_smear_ft. Qed.
Print Assumptions C51_drift_is_transform_of_smear.

Theorem C51_drift_along_one_axis : forall u v a, a <> 0 ->
  drift_OTF u v a 0 = Fin (smear_ft a u) /\ drift_OTF u v 0 a = Fin (smear_ft a v).
Proof. exact drift_one_axis. Qed.
Print Assumptions C51_drift_along_one_axis.

Theorem C51_drift_bounds_and_zeros : forall u v ax ay,
  exists h, drift_OTF u v ax ay = Fin h /\ Rabs h <= 1
    /\ (ax = 0 -> ay = 0 -> h = 1) /\ (u = 0 -> v = 0 -> h = 1)
    /\ (ax <> 0 -> u = 1 / ax -> h = 0) /\ (ay <> 0 -> v = 1 / ay -> h = 0).
Proof. exact drift_bounds. Qed.
Print Assumptions C51_drift_bounds_and_zeros.

Example C51_example : drift_OTF 1 5 (1 / 2) 0 = Fin (2 / PI).
Proof.
  rewrite drift_fin. f_equal. rewrite Rmult_0_l, Rmult_1_r, Rsinc_0, Rsinc_nz by lra.
  replace (PI * (1 / 2)) with (PI / 2) by field. rewrite sin_PI2. generalize PI_RGT_0; intros. field. lra.
Qed.

(** ** C54 *)
Theorem C54_gaussian_mtf : forall u v u' v' bx by_, bx <> 0 -> by_ <> 0 ->
  Rabs u <= Rabs u' -> Rabs v <= Rabs v' ->
  exists h h', gaussian_OTF u v bx by_ = Ok (Fin h) /\ gaussian_OTF u' v' bx by_ = Ok (Fin h')
    /\ 0 < h <= 1 /\ h' <= h /\ (u = 0 -> v = 0 -> h = 1)
    /\ (Rabs u < Rabs u' -> v = v' -> h' < h)
    /\ gaussian_OTF (- u) v bx by_ = Ok (Fin h) /\ gaussian_OTF u (- v) bx by_ = Ok (Fin h)
    /\ (u = 1 / bx -> v = 0 -> h = exp (- PI)).
Proof. exact gaussian_mtf. Qed.
Print Assumptions C54_gaussian_mtf.

Theorem C54_cutoff_value : forall bx by_, bx <> 0 -> by_ <> 0 ->
  exists h, gaussian_OTF (1 / bx) 0 bx by_ = Ok (Fin h) /\ 0.0432 < h < 0.0433.
Proof. exact gaussian_cutoff. Qed.
Print Assumptions C54_cutoff_value.

Theorem C54_zero_blur_raises : forall u v b, gaussian_OTF u v 0 b = Err ZeroDivisionError
  /\ (b <> 0 -> gaussian_OTF u v b 0 = Err ZeroDivisionError).
Proof. exact gaussian_zero_blur. Qed.
Print Assumptions C54_zero_blur_raises.

Theorem C54_defocus_mtf : forall u v u' v' D wx wy, Rabs u <= Rabs u' -> Rabs v <= Rabs v' ->
  exists h h', defocus_OTF u v D wx wy = Fin h /\ defocus_OTF u' v' D wx wy = Fin h'
    /\ 0 < h <= 1 /\ h' <= h /\ (u = 0 -> v = 0 -> h = 1)
    /\ (wx <> 0 -> Rabs u < Rabs u' -> v = v' -> h' < h)
    /\ defocus_OTF (- u) v D wx wy = Fin h /\ defocus_OTF u (- v) D wx wy = Fin h
    /\ (wx <> 0 -> u = 2 / (PI * wx) -> v = 0 -> h = exp (- 1)).
Proof. exact defocus_gauss_mtf. Qed.
Print Assumptions C54_defocus_mtf.

Theorem C54_gaussian_value : forall s t bx by_, bx <> 0 -> by_ <> 0 ->
  gaussian_OTF (s / bx) (t / by_) bx by_ = Ok (Fin (exp (- PI * (s * s + t * t)))).
Proof. exact gaussian_units. Qed.
Print Assumptions C54_gaussian_value.

Theorem C54_defocus_value : forall s t D wx wy, wx <> 0 -> wy <> 0 ->
  defocus_OTF (2 * s / (PI * wx)) (2 * t / (PI * wy)) D wx wy = Fin (exp (- (s * s + t * t))).
Proof. exact defocus_units. Qed.
Print Assumptions C54_defocus_value.

Example C54_example : gaussian_OTF 1 2 1 1 = Ok (Fin (exp (- (5 * PI))))
  /\ defocus_OTF (2 / PI) 0 7 1 1 = Fin (exp (- 1)).
Proof.
  rewrite gaussian_fin by lra. rewrite defocus_gauss_fin. generalize PI_RGT_0; intros. split.
  - do 3 f_equal. ring.
  - do 2 f_equal. field. lra.
Qed.

(** ** C55 *)
Theorem C55_in_cutoff : forall u v l D r a, 0 < l -> 0 < D -> 0 < r -> 0 <= a <= 1 ->
  l * sqrt (u * u + v * v) <= D ->
  exists h, turbulence_OTF u v l D (Fin r) a = Fin h /\ 0 < h <= 1 /\ (u = 0 -> v = 0 -> h = 1).
Proof. exact turbulence_in_cutoff. Qed.
Print Assumptions C55_in_cutoff.

(* long exposure is bounded everywhere; short exposure is at least long
   exposure and exceeds one exactly beyond eight times the cutoff *)
Theorem C55_short_vs_long : forall u v l D r, 0 < l -> 0 < D -> 0 < r ->
  exists hs hl, turbulence_OTF u v l D (Fin r) 0.5 = Fin hs /\ turbulence_OTF u v l D (Fin r) 0 = Fin hl
    /\ 0 < hl <= 1 /\ hl <= hs
    /\ (8 * D < l * sqrt (u * u + v * v) <-> 1 < hs).
Proof. exact turbulence_short_vs_long. Qed.
Print Assumptions C55_short_vs_long.

Theorem C55_monotone_in_r0 : forall u v l D r r', 0 < l -> 0 < D -> 0 < r -> r <= r' ->
  exists h h', turbulence_OTF u v l D (Fin r) 0 = Fin h /\ turbulence_OTF u v l D (Fin r') 0 = Fin h'
    /\ h <= h'.
Proof. exact turbulence_mono_r0. Qed.
Print Assumptions C55_monotone_in_r0.

Theorem C55_infinite_r0 : forall u v l D a, 0 < l -> 0 < D -> turbulence_OTF u v l D PInf a = Fin 1.
Proof. exact turbulence_r0_inf. Qed.
Print Assumptions C55_infinite_r0.

(* Fried's 3.44 and the five-thirds law, and the short-exposure correction *)
Theorem C55_five_thirds_law : forall u v l D r k, 0 < l -> 0 < D -> 0 < r -> 0 < k ->
  exists hl hk hs, turbulence_OTF u v l D (Fin r) 0 = Fin hl
    /\ turbulence_OTF (k * u) (k * v) l D (Fin r) 0 = Fin hk
    /\ (forall a, turbulence_OTF u v l D (Fin r) a = Fin (hs a))
    /\ 0 < hl /\ (l * sqrt (u * u + v * v) = r -> hl = exp (- 3.44))
    /\ ln hk = Rpower k (5 / 3) * ln hl
    /\ (forall a, 0 < sqrt (u * u + v * v) ->
          ln (hs a) = ln hl * (1 - a * Rpower (l * sqrt (u * u + v * v) / D) (1 / 3))).
Proof. exact turb_laws. Qed.
Print Assumptions C55_five_thirds_law.

Example C55_example : turbulence_OTF 1 0 1 1 (Fin 1) 0.5 = Fin (exp (-3.44 * 0.5))
  /\ 8 * 1 < 1 * sqrt (9 * 9 + 0 * 0).
Proof.
  split.
  - rewrite turb_fin by lra. f_equal. unfold turb, rad.
    replace (1 * 1 + 0 * 0) with 1 by ring. rewrite sqrt_1. replace (1 * 1 / 1) with 1 by field.
    rewrite !pw_1. f_equal. lra.
  - replace (9 * 9 + 0 * 0) with (9 * 9) by ring. rewrite sqrt_square; lra.
Qed.

(** ** C56 *)
Theorem C56_between : forall k u v l D r td vel, 0 < l -> 0 < D -> 0 < r -> 0 <= vel * td ->
  exists h hs hl, wind_speed_turbulence_OTF k u v l D (Fin r) td vel = Ok (Fin h)
    /\ turbulence_OTF u v l D (Fin r) 0.5 = Fin hs /\ turbulence_OTF u v l D (Fin r) 0 = Fin hl
    /\ hl <= h <= hs /\ (vel * td = 0 -> h = hs).
Proof. exact wind_between. Qed.
Print Assumptions C56_between.

Theorem C56_monotone : forall k u v l D r td vel td' vel', 0 < l -> 0 < D -> 0 < r ->
  vel * td <= vel' * td' ->
  exists h h', wind_speed_turbulence_OTF k u v l D (Fin r) td vel = Ok (Fin h)
    /\ wind_speed_turbulence_OTF k u v l D (Fin r) td' vel' = Ok (Fin h') /\ h' <= h.
Proof. exact wind_mono. Qed.
Print Assumptions C56_monotone.

Theorem C56_zero_r0_raises : forall u v l D td vel,
  wind_speed_turbulence_OTF Py u v l D (Fin 0) td vel = Err ZeroDivisionError.
Proof. exact wind_r0_zero. Qed.
Print Assumptions C56_zero_r0_raises.

Theorem C56_weight : forall k u v l D r td vel, 0 < l -> 0 < D -> 0 < r ->
  exists h hs hl, wind_speed_turbulence_OTF k u v l D (Fin r) td vel = Ok (Fin h)
    /\ turbulence_OTF u v l D (Fin r) 0.5 = Fin hs /\ turbulence_OTF u v l D (Fin r) 0 = Fin hl
    /\ h - hl = exp (- (vel * td / r)) * (hs - hl).
Proof. exact wind_value. Qed.
Print Assumptions C56_weight.

Example C56_example : wind_speed_turbulence_OTF Np 1 0 1 1 (Fin 1) 2 3
  = Ok (Fin (exp (-6) * exp (-3.44 * 0.5) + (1 - exp (-6)) * exp (-3.44))).
Proof.
  rewrite wind_fin by lra. do 2 f_equal. unfold turb, rad.
  replace (1 * 1 + 0 * 0) with 1 by ring. rewrite sqrt_1. replace (1 * 1 / 1) with 1 by field.
  rewrite !pw_1. replace (- (3) * 2 / 1) with (-6) by field.
  repeat f_equal; lra.
Qed.

(** ** C57 *)
Theorem C57_whole_steps : forall x w n p b f m, f <> 0 -> b <> 0 -> (0 < m)%nat -> n * p = INR m ->
  exists re im, tdi_OTF x w n p b f = (Fin re, Fin im)
    /\ re * re + im * im <= 1
    /\ (x = 0 -> re = 1 /\ im = 0)
    /\ (b = 1 -> re = Rsinc (w * x / f) /\ im = 0).
Proof. exact tdi_whole. Qed.
Print Assumptions C57_whole_steps.

Theorem C57_fractional_steps_exceed_one : forall w n p b f, f <> 0 -> b <> 0 -> 0 < n * p ->
  (forall m : nat, n * p <> INR m) ->
  exists re, tdi_OTF 0 w n p b f = (Fin re, Fin 0) /\ 1 < re
   /\ re = IZR (Zceil (n * p)) / (n * p).
Proof. exact tdi_fractional. Qed.
Print Assumptions C57_fractional_steps_exceed_one.

(* the mean of the phasors of the m steps, each lagging the last *)
Theorem C57_mean_of_steps : forall x w n p b f m, f <> 0 -> b <> 0 -> (0 < m)%nat -> n * p = INR m ->
  let xi := w * x / (f * b) in
  exists re im, tdi_OTF x w n p b f = (Fin re, Fin im)
    /\ INR m * re = Rsinc xi * Rsum (map (fun i => cos (2 * PI * xi * (b - 1) * INR i)) (seq 0 m))
    /\ INR m * im = - Rsinc xi * Rsum (map (fun i => sin (2 * PI * xi * (b - 1) * INR i)) (seq 0 m)).
Proof. exact tdi_phasors. Qed.
Print Assumptions C57_mean_of_steps.

Theorem C57_magnitude : forall x w n p b f m, f <> 0 -> b <> 0 -> (0 < m)%nat -> n * p = INR m ->
  let xi := w * x / (f * b) in let d := PI * xi * (b - 1) in
  exists re im, tdi_OTF x w n p b f = (Fin re, Fin im)
    /\ (INR m * sin d) ^ 2 * (re ^ 2 + im ^ 2) = (Rsinc xi * sin (INR m * d)) ^ 2.
Proof. exact tdi_magnitude. Qed.
Print Assumptions C57_magnitude.

Example C57_example : 2 * 2 = INR 4 /\ (forall m : nat, 1 * 1.5 <> INR m)
  /\ tdi_OTF (1 / 2) 1 1 1 1 1 = (Fin (2 / PI), Fin 0).
Proof.
  split; [simpl; lra|]. split.
  - intros m E. destruct m as [|[|m]]; [simpl in E; lra | simpl in E; lra |].
    rewrite !S_INR in E. generalize (pos_INR m). lra.
  - destruct (tdi_whole (1 / 2) 1 1 1 1 1 1) as (re & im & E & _ & _ & B); try lra; [lia | simpl; lra |].
    destruct (B eq_refl) as [-> ->]. rewrite E. f_equal. f_equal.
    replace (1 * (1 / 2) / 1) with (1 / 2) by field. rewrite Rsinc_nz by lra.
    replace (PI * (1 / 2)) with (PI / 2) by field. rewrite sin_PI2. generalize PI_RGT_0; intros. field. lra.
Qed.

(** ** C58 *)
Theorem C58_wavefront_range : forall u v l pv Lx Ly, Lx <> 0 -> Ly <> 0 -> 0 <= pv ->
  exists h, wavefront_OTF u v l (Fin pv) Lx Ly = Fin h
    /\ exp (- pv) <= h <= 1 /\ (u = 0 -> v = 0 -> h = 1) /\ (pv = 0 -> h = 1).
Proof. exact wavefront_range. Qed.
Print Assumptions C58_wavefront_range.

Theorem C58_wavefront_monotone : forall u v u' v' l pv Lx Ly, Lx <> 0 -> Ly <> 0 -> 0 <= pv ->
  Rabs u <= Rabs u' -> Rabs v <= Rabs v' ->
  exists h h', wavefront_OTF u v l (Fin pv) Lx Ly = Fin h
    /\ wavefront_OTF u' v' l (Fin pv) Lx Ly = Fin h' /\ h' <= h.
Proof. exact wavefront_mono. Qed.
Print Assumptions C58_wavefront_monotone.

Theorem C58_wavefront_2 : forall u v c w, 0 < c ->
  exists h, wavefront_OTF_2 u v c w = Fin h
    /\ (u = 0 -> v = 0 -> h = 1)
    /\ (sqrt (u * u + v * v) = c -> h = 1)
    /\ (sqrt (u * u + v * v) = c / 2 -> h = 1 - (w / 0.18) ^ 2)
    /\ (sqrt (u * u + v * v) <= c -> 1 - (w / 0.18) ^ 2 <= h <= 1)
    /\ (w <> 0 -> c < sqrt (u * u + v * v) -> 1 < h).
Proof. exact wavefront2_cases. Qed.
Print Assumptions C58_wavefront_2.

(* frequencies in units of correlation length over wavelength *)
Theorem C58_wavefront_value : forall s t l pv Lx Ly, l <> 0 -> Lx <> 0 -> Ly <> 0 ->
  wavefront_OTF (s * Lx / l) (t * Ly / l) l (Fin pv) Lx Ly = Fin (exp (- pv * (1 - exp (- (s * s + t * t))))).
Proof. exact wavefront_units. Qed.
Print Assumptions C58_wavefront_value.

Theorem C58_wavefront_2_parabola : forall u v c w, c <> 0 ->
  let x := sqrt (u * u + v * v) / c in
  wavefront_OTF_2 u v c w = Fin (1 - (w / 0.18) ^ 2 * (4 * x * (1 - x))).
Proof. exact wavefront2_parabola. Qed.
Print Assumptions C58_wavefront_2_parabola.

Example C58_example : wavefront_OTF_2 2 0 1 0.18 = Fin 9
  /\ wavefront_OTF 1 0 1 (Fin 2) 1 1 = Fin (exp (-2 * (1 - exp (-1)))).
Proof.
  split.
  - rewrite wavefront2_fin by lra. f_equal. unfold rad. replace (2 * 2 + 0 * 0) with (2 * 2) by ring.
    rewrite sqrt_square by lra. replace (0.18 / 0.18) with 1 by (unfold Rdiv; rewrite Rinv_r; lra). lra.
  - rewrite wavefront_fin by lra. do 3 f_equal. do 2 f_equal. field.
Qed.

(** ** C62 *)
Theorem C62_profile : forall h v c c' v', 0 <= c ->
  exists y, hufnagel_valley_turbulence_profile (Fin h) v c = Fin y /\ 0 < y
    /\ (h = 0 -> y = 2.7 / 10 ^ 16 + c)
    /\ (c < c' -> exists y', hufnagel_valley_turbulence_profile (Fin h) v c' = Fin y' /\ y < y')
    /\ (Rabs v <= Rabs v' -> exists y', hufnagel_valley_turbulence_profile (Fin h) v' c = Fin y' /\ y <= y'
          /\ (Rabs v < Rabs v' -> h <> 0 -> y < y')).
Proof. exact hv_props. Qed.
Print Assumptions C62_profile.

(* the Hufnagel-Valley formula as published *)
Theorem C62_published_formula : forall h v a,
  hufnagel_valley_turbulence_profile (Fin h) v a
  = Fin (0.00594 * (v / 27) ^ 2 * (h / 10 ^ 5) ^ 10 * exp (- (h / 1000))
         + 2.7 / 10 ^ 16 * exp (- (h / 1500)) + a * exp (- (h / 100))).
Proof. exact hv_published. Qed.
Print Assumptions C62_published_formula.

(* at 1500 m the second term has fallen to 2.7e-16/e *)
Example C62_example : hufnagel_valley_turbulence_profile (Fin 1500) 0 0 = Fin (2.7 / 10 ^ 16 * exp (-1)).
Proof.
  rewrite hv_fin. f_equal. unfold hv. replace (0 / 27) with 0 by field. rewrite !Rmult_0_r, !Rmult_0_l.
  replace (- (1500) / 1500) with (-1) by field. ring.
Qed.

(** ** C63 *)
Theorem C63_object_radii : forall D R0 R1, R0 <> 0 -> R1 <> 0 ->
  exists w, object_domain_defocus_radii D R0 R1 = Ok w
    /\ object_domain_defocus_radii D R1 R0 = Ok (- w)
    /\ (D <> 0 -> (w = 0 <-> R0 = R1)).
Proof. exact object_radii. Qed.
Print Assumptions C63_object_radii.

Theorem C63_object_radii_value : forall D R0 R1, R0 <> 0 -> R1 <> 0 ->
  exists w, object_domain_defocus_radii D R0 R1 = Ok w /\ w * R0 * R1 = 0.62 * D * (R1 - R0).
Proof. exact object_radii_value. Qed.
Print Assumptions C63_object_radii_value.

Theorem C63_object_radii_zero_range : forall D R1, object_domain_defocus_radii D 0 R1 = Err ZeroDivisionError
  /\ (R1 <> 0 -> object_domain_defocus_radii D R1 0 = Err ZeroDivisionError).
Proof. exact object_radii_zero. Qed.
Print Assumptions C63_object_radii_zero_range.

Theorem C63_image_radii_linear : forall D f a b dz1 dz2, f <> 0 ->
  exists w1 w2, image_domain_defocus_radii D dz1 f = Ok w1 /\ image_domain_defocus_radii D dz2 f = Ok w2
    /\ image_domain_defocus_radii D (a * dz1 + b * dz2) f = Ok (a * w1 + b * w2)
    /\ w1 * (f * f) = 0.62 * D * dz1.
Proof. exact image_radii. Qed.
Print Assumptions C63_image_radii_linear.

Theorem C63_image_radii_zero_focal_length : forall D dz,
  image_domain_defocus_radii D dz 0 = Err ZeroDivisionError.
Proof. exact image_radii_zero. Qed.
Print Assumptions C63_image_radii_zero_focal_length.

Theorem C63_dark_current_round_trip : forall jd wx wy, wx <> 0 -> wy <> 0 ->
  dark_current_from_density jd wx wy * (1.60217662 / 10 ^ 19) / (wx * wy) = jd.
Proof. exact dark_current. Qed.
Print Assumptions C63_dark_current_round_trip.

Example C63_example : object_domain_defocus_radii 1 1 2 = Ok 0.31
  /\ image_domain_defocus_radii 1 2 2 = Ok 0.31.
Proof.
  unfold object_domain_defocus_radii, image_domain_defocus_radii.
  rewrite !pydiv_ok by lra. cbn [bind]. split; f_equal; lra.
Qed.
