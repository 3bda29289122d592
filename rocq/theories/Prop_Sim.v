(** * Prop_Sim: properties C87-C93 and C96-C100. *)
From Coq Require Import Reals Lra Lia Bool List ZArith Sorted Permutation.
From Coquelicot Require Import Coquelicot.
From Verif Require Import Base_XR Base_Np Base_Percentile Model_Geo Model_Noise Model_Db Model_Scenario Model_Sensor Model_Rad Model_Otf Model_Img Model_Met Model_Sim
  Spec_Rad Spec_Img Spec_System Spec_Met Spec_Sim Proof_Image Proof_NiirsDemo Proof_Refl Proof_Sim Proof_SimT Proof_SimP Proof_SimDemo Proof_SimX Proof_GainDemo Proof_SimCal.
Import ListNotations.
Open Scope R_scope.

(** ** C87 *)
Theorem C87_value : forall a pix refl, length pix = length refl -> (2 <= length pix)%nat -> NoDup pix ->
  exists out, img_to_reflectance a pix refl = Ok out /\ xrows out = rows a /\ xcols out = cols a /\
    forall i j, exists r, xpx out i j = Fin (clip01 r) /\ calibrated (combine pix refl) (px a i j) r.
Proof. exact reflectance_value. Qed.
Print Assumptions C87_value.

Theorem C87_unique : forall cal v r q, NoDup (map fst cal) -> calibrated cal v r -> calibrated cal v q -> r = q.
Proof. exact calibrated_nodup_unique. Qed.
Print Assumptions C87_unique.

Theorem C87_calibration_points : forall a pix refl out k i j, length pix = length refl -> (2 <= length pix)%nat -> NoDup pix ->
  img_to_reflectance a pix refl = Ok out -> (k < length pix)%nat -> px a i j = nth k pix 0 -> 0 <= nth k refl 0 <= 1 ->
  xpx out i j = Fin (nth k refl 0).
Proof. exact reflectance_points. Qed.
Print Assumptions C87_calibration_points.

Theorem C87_monotone : forall a pix refl out, length pix = length refl -> (2 <= length pix)%nat -> NoDup pix -> rising (combine pix refl) ->
  img_to_reflectance a pix refl = Ok out -> forall i j i' j', px a i j <= px a i' j' ->
  exists r q, xpx out i j = Fin r /\ xpx out i' j' = Fin q /\ r <= q.
Proof. exact reflectance_mono. Qed.
Print Assumptions C87_monotone.

Theorem C87_order_irrelevant : forall a pix refl pix' refl' out out', length pix = length refl -> (2 <= length pix)%nat -> NoDup pix ->
  length pix' = length refl' -> Permutation (combine pix refl) (combine pix' refl') ->
  img_to_reflectance a pix refl = Ok out -> img_to_reflectance a pix' refl' = Ok out' ->
  xrows out = xrows out' /\ xcols out = xcols out' /\ forall i j, xpx out i j = xpx out' i j.
Proof. exact reflectance_order. Qed.
Print Assumptions C87_order_irrelevant.

Theorem C87_shape_errors : forall a pix refl, (pix = [] \/ length pix <> length refl) -> img_to_reflectance a pix refl = Err ValueError.
Proof. exact reflectance_errors. Qed.
Print Assumptions C87_shape_errors.

(* "at least two distinct pixel values" is not enough: *)
Theorem C87_two_distinct_values_refuted : ~ forall a pix refl out, length pix = length refl ->
  (exists p q, In p pix /\ In q pix /\ p <> q) -> img_to_reflectance a pix refl = Ok out ->
  forall i j, (i < rows a)%nat -> (j < cols a)%nat -> exists r, xpx out i j = Fin r /\ 0 <= r <= 1.
Proof. exact reflectance_distinct_refuted. Qed.
Print Assumptions C87_two_distinct_values_refuted.

(* the docstring: ValueError if a calibration array has fewer than two entries *)
Theorem C87_single_point_raises_refuted : ~ forall a pix refl, (length pix < 2 \/ length refl < 2)%nat ->
  img_to_reflectance a pix refl = Err ValueError.
Proof. exact reflectance_single_refuted. Qed.
Print Assumptions C87_single_point_raises_refuted.

(* what happens instead *)
Theorem C87_single_point_nan : forall a p r out i j, img_to_reflectance a [p] [r] = Ok out -> xpx out i j = NaN.
Proof. exact reflectance_one. Qed.
Print Assumptions C87_single_point_nan.

Example C87_example : good_calibration (sr_pix demo_ref) (sr_refl demo_ref) /\ rising (combine (sr_pix demo_ref) (sr_refl demo_ref)) /\
  exists out, img_to_reflectance (sr_img demo_ref) (sr_pix demo_ref) (sr_refl demo_ref) = Ok out /\ xpx out 0%nat 1%nat = Fin 0.18.
Proof. exact refl_demo. Qed.

(** ** C88 *)
(* the true image is what the camera would collect from the calibrated scene in
   an exposure that just avoids saturation; the rest is blurring and noise *)
Theorem C88_pipeline : forall diag s c r m tr q, good_camera s -> good_geometry c -> good_scene s (atm_rows m) ->
  good_calibration (sr_pix r) (sr_refl r) -> response_curves s tr q ->
  exists b T ref pe wl w otf df, seen_rows s (atm_rows m) b /\ rows T = rows (sr_img r) /\ cols T = cols (sr_img r) /\
    (forall i j, 0 <= px T i j <= s_max_n s /\ exists rho, calibrated (combine (sr_pix r) (sr_refl r)) (px (sr_img r) i j) rho /\
       px T i j = collected s tr q b (exposure s tr q b) 300 (clip01 rho)) /\
    reflectance_to_photoelectrons (atm_rows m) s (s_int_time s) 300 = Ok (ref, pe, (wl, w)) /\ simulate_otf diag s c wl w = Ok (otf, df) /\
    (exists a, In a b /\ df = s_D s / a_wl a / 750) /\
    forall d, simulate_rest diag d s c r m =
      let* (blur, _) := apply_otf_to_image T (sr_gsd r) Np (sqrt (altitude c * altitude c + ground_range c * ground_range c)) otf Np df
                          Py ((s_px s + s_py s) / 2 / s_f s) in
      let* noisy := add_noise d (g_noise_of s) blur in Ok (T, blur, noisy).
Proof. exact sim_pipeline_stated. Qed.
Print Assumptions C88_pipeline.

(* the same from the reference image on: tables that are given are used as given ... *)
Theorem C88_given_calibration : forall ni it diag d a gsd pix refl s w m tr q, good_camera s -> good_geometry (sc w) ->
  observe ni it w = Ok m -> good_scene s (atm_rows m) -> good_calibration pix refl -> response_curves s tr q ->
  exists r, reference_init a gsd (Some pix) (Some refl) = Ok r /\ sr_gsd r = gsd /\ forall w' T B X,
  simulate_image ni it diag d r s w = (w', Ok (T, B, X)) ->
  exists b, seen_rows s (atm_rows m) b /\ rows T = rows a /\ cols T = cols a /\
    forall i j, exists rho, calibrated (combine pix refl) (px a i j) rho /\
      px T i j = collected s tr q b (exposure s tr q b) 300 (clip01 rho).
Proof. exact true_given. Qed.
Print Assumptions C88_given_calibration.

Example C88_given_example : good_calibration (sr_pix demo_ref) (sr_refl demo_ref) /\ good_geometry (sc demo_world) /\
  observe demo_load demo_load demo_world = Ok demo_m /\
  forall d, exists r, reference_init (sr_img demo_ref) (sr_gsd demo_ref) (Some (sr_pix demo_ref)) (Some (sr_refl demo_ref)) = Ok r /\
    exists w t bl n, simulate_image demo_load demo_load no_diag d r (red_cam [[1]]) demo_world = (w, Ok (t, bl, n)).
Proof. exact given_demo. Qed.

(* ... and by default reflectance 0.05 is given to the 0.2 percentile and 0.95 to the 99.8 percentile of the pixels *)
Theorem C88_default_calibration : forall ni it diag d a gsd s w m tr q lo hi, good_camera s -> good_geometry (sc w) ->
  observe ni it w = Ok m -> good_scene s (atm_rows m) -> percentile (ravel a) 0.2 = Ok lo -> percentile (ravel a) 99.8 = Ok hi -> lo < hi ->
  response_curves s tr q ->
  exists r, reference_init a gsd None None = Ok r /\ sr_gsd r = gsd /\ forall w' T B X,
  simulate_image ni it diag d r s w = (w', Ok (T, B, X)) ->
  exists b, seen_rows s (atm_rows m) b /\ rows T = rows a /\ cols T = cols a /\
    forall i j, exists rho, calibrated [(lo, 0.05); (hi, 0.95)] (px a i j) rho /\
      px T i j = collected s tr q b (exposure s tr q b) 300 (clip01 rho).
Proof. exact true_default. Qed.
Print Assumptions C88_default_calibration.

Example C88_default_example : exists lo hi r, percentile (ravel strip) 0.2 = Ok lo /\ percentile (ravel strip) 99.8 = Ok hi /\ lo < hi /\
  reference_init strip 18 None None = Ok r /\
  forall d, exists w t bl n, simulate_image demo_load demo_load no_diag d r (red_cam [[1]]) demo_world = (w, Ok (t, bl, n)).
Proof. exact default_demo. Qed.

Theorem C88_uniform_scene : forall diag d s c r m v T B X, good_camera s -> good_geometry c -> good_scene s (atm_rows m) ->
  good_calibration (sr_pix r) (sr_refl r) -> (forall i j, px (sr_img r) i j = v) -> simulate_rest diag d s c r m = Ok (T, B, X) ->
  exists n, 0 <= n <= s_max_n s /\ (forall i j, px T i j = n) /\ forall i j, (i < rows B)%nat -> (j < cols B)%nat -> px B i j = n.
Proof. exact sim_uniform. Qed.
Print Assumptions C88_uniform_scene.

Theorem C88_success : forall diag s c r m, good_camera s -> good_geometry c -> good_scene s (atm_rows m) ->
  good_calibration (sr_pix r) (sr_refl r) -> s_max_n s <= 10 ^ 18 ->
  exists T ref pe wl w otf df g, reflectance_to_photoelectrons (atm_rows m) s (s_int_time s) 300 = Ok (ref, pe, (wl, w)) /\
    simulate_otf diag s c wl w = Ok (otf, df) /\ rows T = rows (sr_img r) /\ cols T = cols (sr_img r) /\ g_noise_of s = Fin g /\
    forall psf B sp, otf_to_psf otf Np df (Fin (2 * atan (sr_gsd r / 2 / slant_flat c))) = Ok psf ->
      (forall p q, (p < rows psf)%nat -> (q < cols psf)%nat -> 0 <= px psf p q) ->
      apply_otf_to_image T (sr_gsd r) Np (slant_flat c) otf Np df Py ((s_px s + s_py s) / 2 / s_f s) = Ok (B, sp) ->
      (forall i j, (i < rows B)%nat -> (j < cols B)%nat -> 0 <= px B i j <= s_max_n s) /\
      forall d, exists X, simulate_rest diag d s c r m = Ok (T, B, X) /\ xrows X = rows B /\ xcols X = cols B /\
        forall i j, xpx X i j = Fin (INR (d_count d (px B i j) i j) + g * d_normal d i j).
Proof. exact sim_success. Qed.
Print Assumptions C88_success.

Example C88_example : good_camera (red_cam [[1]]) /\ good_geometry demo_over /\ good_scene (red_cam [[1]]) (atm_rows demo_m) /\
  good_calibration (sr_pix demo_ref) (sr_refl demo_ref) /\ s_max_n (red_cam [[1]]) <= 10 ^ 18 /\
  forall d, exists T B X, simulate_rest no_diag d (red_cam [[1]]) demo_over demo_ref demo_m = Ok (T, B, X).
Proof. exact sim_demo. Qed.
Example C88_uniform_example : forall d, good_calibration (sr_pix demo_uniform) (sr_refl demo_uniform) /\
  exists T B X, simulate_rest no_diag d (red_cam [[1]]) demo_over demo_uniform demo_m = Ok (T, B, X).
Proof. exact sim_demo_uniform. Qed.

(** ** C89 *)
Theorem C89_inverse_filter : forall re im, (re <> 0 \/ im <> 0) -> exists a b,
  wiener_filter re im 0 = (Fin a, Fin b) /\ cmul (a, b) (re, im) = (1, 0).
Proof. exact wiener_inverse. Qed.
Print Assumptions C89_inverse_filter.

Theorem C89_product : forall re im nsr, 0 < nsr -> exists a b m,
  wiener_filter re im nsr = (Fin a, Fin b) /\ cmul (a, b) (re, im) = (m, 0) /\ 0 <= m < 1 /\ (0 < m <-> (re <> 0 \/ im <> 0)).
Proof. exact wiener_product. Qed.
Print Assumptions C89_product.

Theorem C89_normalised : forall nsr, 1 + nsr <> 0 -> exists a, wiener_filter 1 0 nsr = (Fin a, Fin 0) /\ (1 + nsr) * a = 1.
Proof. exact wiener_normalised. Qed.
Print Assumptions C89_normalised.

Theorem C89_optimal : forall re im nsr S om a b g, 0 <= nsr -> 0 <= S -> 0 < re * re + im * im + nsr ->
  uncorrelated om S nsr -> wiener_filter re im nsr = (Fin a, Fin b) ->
  mean om (restoration_error (re, im) (a, b)) <= mean om (restoration_error (re, im) g).
Proof. exact wiener_optimal. Qed.
Print Assumptions C89_optimal.

Theorem C89_nothing_left : wiener_filter 0 0 0 = (NaN, NaN).
Proof. exact wiener_none. Qed.
Print Assumptions C89_nothing_left.

Example C89_example : uncorrelated signal_demo 1 (1 / 4) /\ wiener_filter (1 / 2) 0 (1 / 4) = (Fin 1, Fin 0) /\
  mean signal_demo (restoration_error (1 / 2, 0) (1, 0)) = 1 / 2.
Proof. exact wiener_demo. Qed.

(** ** C90 *)
Theorem C90_levels : forall l perc p0 p1 rest lo hi, perc_of perc = p0 :: p1 :: rest -> percentile l p0 = Ok lo -> percentile l p1 = Ok hi -> lo <> hi ->
  exists out, stretch_contrast_convert_8bit l perc = Ok out /\ length out = length l /\
    forall i, (i < length l)%nat -> (0 <= nth i out 0%Z <= 255)%Z /\ half_even (display_level lo hi (nth i l 0)) (nth i out 0%Z).
Proof. exact stretch_levels. Qed.
Print Assumptions C90_levels.

Theorem C90_order : forall l perc p0 p1 rest lo hi out, perc_of perc = p0 :: p1 :: rest -> percentile l p0 = Ok lo -> percentile l p1 = Ok hi -> lo < hi ->
  stretch_contrast_convert_8bit l perc = Ok out ->
  (forall i j, (i < length l)%nat -> (j < length l)%nat -> nth i l 0 <= nth j l 0 -> (nth i out 0 <= nth j out 0)%Z) /\
  (forall i, (i < length l)%nat -> nth i l 0 <= lo -> nth i out 0%Z = 0%Z) /\
  (forall i, (i < length l)%nat -> hi <= nth i l 0 -> nth i out 0%Z = 255%Z).
Proof. exact stretch_order. Qed.
Print Assumptions C90_order.

Theorem C90_gain_and_offset_irrelevant : forall l perc p0 p1 rest lo hi a b,
  perc_of perc = p0 :: p1 :: rest -> percentile l p0 = Ok lo -> percentile l p1 = Ok hi -> lo <> hi -> 0 < a ->
  stretch_contrast_convert_8bit (map (fun x => a * x + b) l) perc = stretch_contrast_convert_8bit l perc.
Proof. exact stretch_affine. Qed.
Print Assumptions C90_gain_and_offset_irrelevant.

(* a constant image: 0/0 everywhere, no 8-bit value *)
Theorem C90_constant_image : forall c n perc p0 p1 rest, (0 < n)%nat -> perc_of perc = p0 :: p1 :: rest -> 0 <= p0 <= 100 -> 0 <= p1 <= 100 ->
  stretch_contrast_convert_8bit (repeat c n) perc = Err NonFinite.
Proof. exact stretch_constant. Qed.
Print Assumptions C90_constant_image.

Theorem C90_bad_percentiles : forall l perc p0 p1 rest, l <> [] -> perc_of perc = p0 :: p1 :: rest -> (p0 < 0 \/ 100 < p0 \/ p1 < 0 \/ 100 < p1) ->
  stretch_contrast_convert_8bit l perc = Err ValueError.
Proof. exact stretch_out_of_range. Qed.
Print Assumptions C90_bad_percentiles.

Example C90_example : percentile [0; 1; 3] 0 = Ok 0 /\ percentile [0; 1; 3] 100 = Ok 3 /\
  stretch_contrast_convert_8bit [0; 1; 3] (Some [0; 100]) = Ok [0; 85; 255]%Z.
Proof. exact stretch_demo. Qed.

(** ** C91 *)
(* variance of the additive noise = variance of rounding to one of 2^bits levels + read noise squared *)
Theorem C91_variance : forall s, 0 < s_bits s -> 0 < s_max_n s -> exists g, g_noise_of s = Fin g /\ 0 < g /\
  let q := s_max_n s / (Rpower 2 (s_bits s) - 1) in
  is_RInt (fun e => e * e / q) (- (q / 2)) (q / 2) (g * g - s_read s * s_read s).
Proof. exact g_variance. Qed.
Print Assumptions C91_variance.

Theorem C91_noiseless : forall s, 0 < s_bits s -> (g_noise_of s = Fin 0 <-> s_max_n s = 0 /\ s_read s = 0).
Proof. exact g_noiseless. Qed.
Print Assumptions C91_noiseless.

Theorem C91_no_converter : forall s, s_bits s = 0 -> 0 < s_max_n s -> g_noise_of s = PInf.
Proof. exact g_no_bits. Qed.
Print Assumptions C91_no_converter.

(* for draws with the moments of Poisson and standard normal numbers: the noisy
   pixel has the blurred pixel as its mean and shot + additive noise as its variance *)
Theorem C91_pixel_statistics : forall om a g i j, (forall i j, (i < rows a)%nat -> (j < cols a)%nat -> 0 <= px a i j <= lam_max) ->
  shot_and_normal om (px a i j) (fun d => INR (d_count d (px a i j) i j)) (fun d => d_normal d i j) ->
  exists pixel : draws -> R, (forall d, exists b, add_noise d (Fin g) a = Ok b /\ xpx b i j = Fin (pixel d)) /\
    mean om pixel = px a i j /\ mean om (fun d => (pixel d - px a i j) * (pixel d - px a i j)) = px a i j + g * g.
Proof. exact pixel_statistics. Qed.
Print Assumptions C91_pixel_statistics.

Example C91_example : 0 < s_bits (red_cam [[1]]) /\ 0 < s_max_n (red_cam [[1]]) /\
  shot_and_normal coin_draws 1 (fun d => INR (d_count d 1 0 0)) (fun d => d_normal d 0 0) /\ 1 <= lam_max.
Proof. exact noise_demo. Qed.

(** ** C92 *)
Theorem C92_compose : forall w f rg, f <> 0 -> exists i, instantaneous_FOV w f = Ok i /\ ground_sample_distance i rg = w * rg / f.
Proof. exact ifov_gsd. Qed.
Print Assumptions C92_compose.

Theorem C92_zero_focal_length : forall w, instantaneous_FOV w 0 = Err ZeroDivisionError.
Proof. exact ifov_zero. Qed.
Print Assumptions C92_zero_focal_length.

Theorem C92_small_angle : forall w f i, 0 <= w -> 0 < f -> instantaneous_FOV w f = Ok i ->
  0 <= 2 * atan (w / 2 / f) <= i /\ i <= 2 * atan (w / 2 / f) * (1 + (i / 2) * (i / 2)).
Proof. exact ifov_bounds. Qed.
Print Assumptions C92_small_angle.

Example C92_example : instantaneous_FOV 8 4 = Ok 2 /\ ground_sample_distance 2 9 = 8 * 9 / 4.
Proof. exact ifov_demo. Qed.

(** ** C93 *)
Theorem C93_valid_path : forall c, 0 < altitude c -> Rabs (ground_range c) <= 2 * 6378164 ->
  good_path c (sqrt (altitude c * altitude c + ground_range c * ground_range c)).
Proof. exact flat_good_path. Qed.
Print Assumptions C93_valid_path.

Theorem C93_overhead : forall c, 0 <= altitude c -> ground_range c = 0 ->
  curved_earth_slant_range 0 (altitude c) (ground_range c) = Fin (slant_flat c).
Proof. exact flat_overhead. Qed.
Print Assumptions C93_overhead.

Theorem C93_error : forall c s, 0 <= altitude c -> curved_earth_slant_range 0 (altitude c) (ground_range c) = Fin s ->
  let flat2 := altitude c * altitude c + ground_range c * ground_range c in
  flat2 * (1 - ground_range c * ground_range c / (12 * 6378164 * 6378164)) <= s * s /\ s * s <= flat2 * (1 + altitude c / 6378164).
Proof. exact flat_error. Qed.
Print Assumptions C93_error.

Theorem C93_same_range_refuted : ~ forall c, 0 < altitude c -> Rabs (ground_range c) <= 2 * 6378164 ->
  curved_earth_slant_range 0 (altitude c) (ground_range c) = Fin (slant_flat c).
Proof. exact flat_refuted. Qed.
Print Assumptions C93_same_range_refuted.

Example C93_example : 0 < altitude demo_scen /\ Rabs (ground_range demo_scen) <= 2 * 6378164.
Proof. exact flat_demo. Qed.

(** ** C96 *)
Theorem C96_no_signal : forall diag d s c r m, good_camera s -> sound_rows (atm_rows m) -> StronglySorted Rlt (map a_wl (atm_rows m)) ->
  (exists a, In a (atm_rows m) /\ in_band s a) ->
  (forall a x y, In a (atm_rows m) -> in_band s a -> reads (s_owl s) (s_otr s) (a_wl a) x -> reads (s_qwl s) (s_qe s) (a_wl a) y ->
     electrons s x y (a_wl a) (scene_radiance 1 300 a) = 0) ->
  simulate_rest diag d s c r m = Err ValueError.
Proof. exact sim_dark. Qed.
Print Assumptions C96_no_signal.

(* "every image can be simulated with the default calibration" is false: *)
Theorem C96_flat_reference_image : forall diag d s c a gsd v r m, good_camera s -> good_geometry c -> good_scene s (atm_rows m) -> nonempty a ->
  (forall i j, (i < rows a)%nat -> (j < cols a)%nat -> px a i j = v) -> reference_init a gsd None None = Ok r ->
  simulate_rest diag d s c r m = Err NonFinite.
Proof. exact sim_flat. Qed.
Print Assumptions C96_flat_reference_image.

Theorem C96_negative_pixel : forall diag d s c r m T B sp i j, good_camera s -> good_geometry c -> good_scene s (atm_rows m) ->
  good_calibration (sr_pix r) (sr_refl r) ->
  (exists ref pe wl w otf df X pe', reflectance_to_photoelectrons (atm_rows m) s (s_int_time s) 300 = Ok (ref, pe, (wl, w)) /\
    simulate_otf diag s c wl w = Ok (otf, df) /\ mapM finite pe = Ok pe' /\
    img_to_reflectance (sr_img r) (sr_pix r) (sr_refl r) = Ok X /\ to_photoelectrons ref pe' X = Ok T /\
    apply_otf_to_image T (sr_gsd r) Np (slant_flat c) otf Np df Py ((s_px s + s_py s) / 2 / s_f s) = Ok (B, sp)) ->
  (i < rows B)%nat -> (j < cols B)%nat -> px B i j < 0 -> simulate_rest diag d s c r m = Err ValueError.
Proof. exact sim_negative. Qed.
Print Assumptions C96_negative_pixel.

Example C96_example : good_camera blind_cam /\ sound_rows (atm_rows demo_m) /\ (exists a, In a (atm_rows demo_m) /\ in_band blind_cam a) /\
  (forall a x y, In a (atm_rows demo_m) -> in_band blind_cam a -> reads (s_owl blind_cam) (s_otr blind_cam) (a_wl a) x ->
     reads (s_qwl blind_cam) (s_qe blind_cam) (a_wl a) y -> electrons blind_cam x y (a_wl a) (scene_radiance 1 300 a) = 0) /\
  reference_init flat_image 18 None None = Ok {| sr_img := flat_image; sr_gsd := 18; sr_pix := [7; 7]; sr_refl := [0.05; 0.95] |}.
Proof. exact failure_demo. Qed.

(** ** C97 *)
(* full statement: the PSF is the inverse transform of the OTF centred on the
   frame.  simulate_image always uses 1501 x 1501 samples, so (see C70) what it
   gets carries a cosine of one period per frame: *)
Theorem C97_psf_is_modulated : forall diag s c all ref pe wl w otf df, good_camera s -> good_geometry c -> good_scene s all -> (length (s_kernel s) <= 1)%nat ->
  reflectance_to_photoelectrons all s (s_int_time s) 300 = Ok (ref, pe, (wl, w)) -> simulate_otf diag s c wl w = Ok (otf, df) ->
  forall i j, px (psf_raw otf) i j = cos (2 * PI * ((INR i - 750) / 1501 + (INR j - 750) / 1501)) * inverse_ft 1501 1501 750 750 (re otf) (im otf) i j.
Proof. exact sim_modulated. Qed.
Print Assumptions C97_psf_is_modulated.

Example C97_example : good_camera (red_cam [[1]]) /\ good_geometry demo_over /\ good_scene (red_cam [[1]]) (atm_rows demo_m) /\
  exists ref pe wl w otf df, reflectance_to_photoelectrons (atm_rows demo_m) (red_cam [[1]]) (s_int_time (red_cam [[1]])) 300 = Ok (ref, pe, (wl, w)) /\
    simulate_otf no_diag (red_cam [[1]]) demo_over wl w = Ok (otf, df).
Proof. exact otf_demo. Qed.

(** ** C98 *)
Theorem C98_coarse_scene : forall diag s c r m tr q, good_camera s -> good_geometry c -> good_scene s (atm_rows m) ->
  good_calibration (sr_pix r) (sr_refl r) -> response_curves s tr q -> (length (s_kernel s) <= 1)%nat -> fine_detector s (atm_rows m) -> 0 <= plain c AircraftSpeed ->
  s_max_n s <= 10 ^ 18 -> nonempty (sr_img r) -> coarse_scene s c (sr_gsd r) (atm_rows m) ->
  (s_px s + s_py s) / 2 / s_f s <= sr_gsd r / slant_flat c ->
  exists b T B T' g, seen_rows s (atm_rows m) b /\ rows T = rows (sr_img r) /\ cols T = cols (sr_img r) /\
    (forall i j, exists rho, calibrated (combine (sr_pix r) (sr_refl r)) (px (sr_img r) i j) rho /\
       px T i j = collected s tr q b (exposure s tr q b) 300 (clip01 rho)) /\
    resample_2D Np T (Fin (sr_gsd r / slant_flat c)) (Fin ((s_px s + s_py s) / 2 / s_f s)) = Ok T' /\
    rows B = rows T' /\ cols B = cols T' /\ (forall i j, (i < rows B)%nat -> (j < cols B)%nat -> px B i j = px T' i j /\ 0 <= px B i j <= s_max_n s) /\
    g_noise_of s = Fin g /\
    forall d, exists X, simulate_rest diag d s c r m = Ok (T, B, X) /\ xrows X = rows B /\ xcols X = cols B /\
      forall i j, xpx X i j = Fin (INR (d_count d (px B i j) i j) + g * d_normal d i j).
Proof. exact sim_coarse. Qed.
Print Assumptions C98_coarse_scene.

Example C98_example : fine_detector (red_cam [[1]]) (atm_rows demo_m) /\ coarse_scene (red_cam [[1]]) demo_over (sr_gsd demo_ref) (atm_rows demo_m) /\
  (s_px (red_cam [[1]]) + s_py (red_cam [[1]])) / 2 / s_f (red_cam [[1]]) <= sr_gsd demo_ref / slant_flat demo_over.
Proof. exact coarse_demo. Qed.

(** ** C99 *)
Theorem C99_centre_and_symmetry : forall diag s c all ref pe wl w otf df, good_camera s -> good_geometry c -> good_scene s all -> (length (s_kernel s) <= 1)%nat ->
  reflectance_to_photoelectrons all s (s_int_time s) 300 = Ok (ref, pe, (wl, w)) -> simulate_otf diag s c wl w = Ok (otf, df) ->
  crows otf = 1501%nat /\ ccols otf = 1501%nat /\ 0 < df /\ re otf 750%nat 750%nat = 1 /\
  forall i j, (i <= 1500)%nat -> (j <= 1500)%nat -> re otf (1500 - i)%nat (1500 - j)%nat = re otf i j /\ im otf i j = 0.
Proof. exact sim_symmetric. Qed.
Print Assumptions C99_centre_and_symmetry.

Theorem C99_nonnegative : forall diag s c all ref pe wl w otf df, good_camera s -> good_geometry c -> good_scene s all -> (length (s_kernel s) <= 1)%nat ->
  fine_detector s all -> 0 <= plain c AircraftSpeed ->
  reflectance_to_photoelectrons all s (s_int_time s) 300 = Ok (ref, pe, (wl, w)) -> simulate_otf diag s c wl w = Ok (otf, df) ->
  forall i j, (i <= 1500)%nat -> (j <= 1500)%nat -> 0 <= re otf i j.
Proof. exact sim_otf_nonneg. Qed.
Print Assumptions C99_nonnegative.

Example C99_example : (length (s_kernel (red_cam [[1%R]])) <= 1)%nat /\ fine_detector (red_cam [[1]]) (atm_rows demo_m) /\
  0 <= plain demo_over AircraftSpeed /\
  exists ref pe wl w otf df, reflectance_to_photoelectrons (atm_rows demo_m) (red_cam [[1]]) (s_int_time (red_cam [[1]])) 300 = Ok (ref, pe, (wl, w)) /\
    simulate_otf no_diag (red_cam [[1]]) demo_over wl w = Ok (otf, df).
Proof. exact symmetry_demo. Qed.

(** ** C100 *)
Theorem C100_uses_current_atmosphere : forall ni it diag d r s w m, observe ni it w = Ok m ->
  exists w1, simulate_image ni it diag d r s w = (w1, simulate_rest diag d s (sc w1) r m) /\
    altitude (sc w1) = altitude (sc w) /\ ground_range (sc w1) = ground_range (sc w) /\ plain (sc w1) = plain (sc w).
Proof. exact sim_current. Qed.
Print Assumptions C100_uses_current_atmosphere.

Theorem C100_loads_once : forall ni it diag d r s w w1 out, simulate_image ni it diag d r s w = (w1, out) -> (exists m, observe ni it w = Ok m) ->
  (loads w1 <= S (loads w))%nat /\ (forall d' r' s', fst (simulate_image ni it diag d' r' s' w1) = w1) /\ simulate_image ni it diag d r s w1 = (w1, out).
Proof. exact sim_once. Qed.
Print Assumptions C100_loads_once.

Theorem C100_load_error : forall ni it diag d r s w e, observe ni it w = Err e -> snd (simulate_image ni it diag d r s w) = Err e.
Proof. exact sim_load_error. Qed.
Print Assumptions C100_load_error.

Example C100_example : observe demo_load demo_load (init 1 9000 0 false (plain demo_over)) = Ok demo_m.
Proof. exact world_demo. Qed.
