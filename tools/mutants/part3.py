# realistic wrong programs for metrics, simulation and plots
M = []
def m(definition, file, old, new, prop, claim, *targets):
    M.append(dict(definition=definition, file="Model_" + file, old=old, new=new, claim=prop + ": " + claim, targets=["Prop_" + t for t in targets]))
E, S, P = "Met", "Sim", "Plot"
m("giqe3", E, "(xmul (Fin 1.48) eho))\n       (xdiv ng snr)", "(xmul (Fin 1.48) eho))\n       (xdiv snr ng)", "C78", "noise term inverted", "Met")
m("giqe3", E, "(xmul (Fin 1.48) eho)", "(xmul (Fin 1.48) rer)", "C78", "edge response used for the overshoot", "Met")
m("giqe3", E, "(xlog10 (xdiv rer (xdiv gsd (Fin 0.0254))))", "(xlog10 (xdiv rer (xdiv gsd (Fin 0.3048))))", "C78", "feet instead of inches", "Met")
m("giqe4", E, "if xle (Fin 0.9) rer then", "if xlt (Fin 0.9) rer then", "C79", "boundary of the coefficient switch", "Met")
m("giqe4", E, "then (3.32, 1.559) else (3.16, 2.817)", "then (3.16, 2.817) else (3.32, 1.559)", "C79", "coefficients exchanged", "Met")
m("giqe4", E, "(xpow (xsin elev) 0.5) in", "(xsin elev) in", "C79", "ground plane projection without the root", "Met")
m("giqe4", E, "(xmul (Fin 0.334) ng)", "(Fin 0.334)", "C79", "noise gain forgotten", "Met")
m("giqe4", E, "(xmul (Fin 0.656) eho))", "(xmul (Fin (-0.656)) eho))", "C79", "overshoot raises the rating", "Met")
m("giqe5", E, "(xpow (xsin elev) 0.25) in", "(xpow (xsin elev) 0.5) in", "C80", "GIQE 4 projection", "Met")
m("giqe5", E, "(xmul (xmax rer_1 rer_2) (xsq (xmin rer_1 rer_2)))", "(xmul (xmin rer_1 rer_2) (xsq (xmax rer_1 rer_2)))", "C80", "weight on the better edge", "Met")
m("giqe5", E, "(xmul (xmax rer_1 rer_2) (xsq (xmin rer_1 rer_2)))", "(xmul rer_1 (xsq rer_2))", "C80", "not symmetric in the edges", "Met")
m("giqe5", E, "(xpown lr 4)", "(xpown lr 2)", "C80", "power of the edge term", "Met")
m("giqe5", E, "(Fin (-1.9))", "(Fin 1.9)", "C80", "sign in the exponent", "Met")
m("giqe5", E, "(xdiv (Fin 1.8) snr)", "(xdiv (Fin 1.8) (xsq snr))", "C80", "snr squared", "Met")
m("edge_response", E, "df * INR i + / 10 ^ 6", "df * (INR i + 1) + / 10 ^ 6", "C75", "frequency grid shifted by one", "Met")
m("edge_response", E, "xadd (Fin 0.5)", "xadd (Fin 0)", "C75", "offset one half missing", "Met")
m("edge_response", E, "sin (2 * PI * w * ifov * pixel_pos)", "cos (2 * PI * w * ifov * pixel_pos)", "C75", "cosine instead of sine", "Met")
m("edge_response", E, "sin (2 * PI * w * ifov * pixel_pos)", "sin (2 * PI * w * pixel_pos)", "C75", "position not in pixels", "Met")
m("relative_edge_response", E, "edge_response (- 0.5) mtf_slice df ifov", "edge_response 0 mtf_slice df ifov", "C75", "measured from the edge instead of across it", "Met")
m("relative_edge_response", E, "Ok (xsub a b)", "Ok (xsub b a)", "C75", "sign", "Met")
m("eho_positions", E, "(seq 0 9)", "(seq 0 8)", "C76", "last position (3.0) left out", "Met")
m("eho_positions", E, "1 + INR i * 0.25", "INR i * 0.25", "C76", "positions start at the edge", "Met")
m("edge_height_overshoot", E, "Ok (nth 1 er NaN)", "Ok (nth 0 er NaN)", "C76", "value at 1.0 instead of 1.25", "Met")
m("edge_height_overshoot", E, "if forallb (fun d => xlt (Fin 0) d) (xdiff er)", "if forallb (fun d => xle (Fin 0) d) (xdiff er)", "C76", "plateaus count as rising", "Met")
m("edge_height_overshoot", E, "else xmaxl er", "else xmaxl (firstn 1 er)", "C76", "first value instead of the peak", "Met")
m("giqe5_RER", E, "let* v_slice := slice_otf mtf (PI / 2) in\n  let* rer_0", "let* v_slice := slice_otf mtf 0 in\n  let* rer_0", "C95", "both slices along u", "Met")
m("giqe5_RER", E, "let* rer_90 := relative_edge_response v_slice df ifov_y in", "let* rer_90 := relative_edge_response v_slice df ifov_x in", "C95", "field of view of the other axis", "Met")
m("giqe_edge_terms", E, "let rer := xsqrt (xmul u_rer v_rer) in", "let rer := xmul (Fin 0.5) (xadd u_rer v_rer) in", "C95", "arithmetic instead of geometric mean", "Met")
m("giqe_edge_terms", E, "edge_height_overshoot v_slice df ifov_y", "edge_height_overshoot u_slice df ifov_x", "C95", "overshoot of one axis twice", "Met")
m("ground_resolved_distance", E, "(xdiv (Fin 3) snr)", "(xdiv snr (Fin 3))", "C77", "threshold inverted", "Met")
m("ground_resolved_distance", E, "xmax (xmul (Fin slant_range)", "xmin (xmul (Fin slant_range)", "C77", "better of the two limits", "Met")
m("ground_resolved_distance", E, "(slant_range * (2 * ifov))", "(slant_range * ifov)", "C77", "one pixel instead of two", "Met")
m("ground_resolved_distance", E, "let fp := rev w in", "let fp := w in", "C77", "frequencies not reversed", "Met")
m("load_band", E, "(if interp then it else ni)", "(if interp then ni else it)", "C95", "loaders exchanged", "Met")
m("load_band", E, "(altitude c) (ground_range c) (ihaze c) in\n  band", "(ground_range c) (altitude c) (ihaze c) in\n  band", "C81", "altitude and ground range exchanged", "Met")
m("load_band", E, "band s (atm_rows m)", "Ok (atm_rows m)", "C95", "not cropped to the sensor's band", "Met")
m("bookkeeping", E, "Rleb (2.9 / 10 ^ 6)", "Rltb (2.9 / 10 ^ 6)", "C81", "boundary of the emissive band", "Met")
m("bookkeeping", E, "(set_plain BackgroundReflectance 0 (set_plain TargetReflectance 0 c))", "c", "C83", "reflectances not cleared in the infrared", "Met")
m("bookkeeping", E, "set_plain BackgroundReflectance 0.07 (set_plain TargetReflectance 0.15 c)", "set_plain BackgroundReflectance 0.15 (set_plain TargetReflectance 0.07 c)", "C83", "target and background exchanged", "Met")
m("bookkeeping", E, "then (1%Z, set_plain TargetTemperature 280 (set_plain TargetTemperature 282", "then (1%Z, set_plain BackgroundTemperature 280 (set_plain TargetTemperature 282", "C83", "as intended: background temperature (the finding would be gone)", "Met")
m("photon_noise", E, "let* e := bmap2 xsub irr (m_other_irr m) in", "let* e := Ok irr in", "C84", "background irradiance of the sensor not subtracted", "Met")
m("photon_noise", E, "Ok (xsqrt (xmul (xmul t (m_int_time m)) (Fin (s_ntdi s))))", "Ok (xsqrt (xmul t (m_int_time m)))", "C84", "TDI stages forgotten", "Met")
m("photon_noise", E, "Ok (xsqrt (xmul (xmul t (m_int_time m)) (Fin (s_ntdi s))))", "Ok (xmul (xmul t (m_int_time m)) (Fin (s_ntdi s)))", "C84", "signal instead of its root", "Met")
m("positive_weights", E, "(fun q => xlt (Fin 0) (snd q))", "(fun q => xle (Fin 0) (snd q))", "C95", "zero weights kept", "Met")
m("freqs", E, "linspace a b 101", "linspace a b 100", "C86", "grid with an even number of points", "Met")
m("meshgrid", E, "flat_map (fun y => map (fun x => (x, y)) u) v", "flat_map (fun x => map (fun y => (x, y)) v) u", "C86", "axes exchanged", "Met")
m("contrast_part", E, "let both := xmax tgt_noise bkg_noise in", "let both := tgt_noise in", "C84", "background noise ignored", "Met")
m("contrast_part", E, "xsqrt (xsub (xsq both) (xsq path_noise))", "xsub both path_noise", "C84", "noises subtracted linearly", "Met")
m("contrast_part", E, "let path_noise := xsqrt (xmul (xmul scatter_rate (m_int_time m)) (Fin (s_ntdi s))) in", "let path_noise := xsqrt (xmul scatter_rate (m_int_time m)) in", "C84", "TDI stages missing in the path noise", "Met")
m("path_radiance", E, "Fin (a_path a + a_scat a)", "Fin (a_path a)", "C84", "scattered sunlight forgotten", "Met")
m("contrast_part", E, "let* lmin := py_min wl' in", "let* lmin := py_min wl in", "C86", "cutoff from wavelengths without weight", "Met")
m("contrast_part", E, "let v := freqs 1 (-1) cutoff in\n  Ok {| ct_snr", "let v := freqs (-1) 1 cutoff in\n  Ok {| ct_snr", "C86", "v not descending", "Met")
m("contrast_part", E, "ct_df := nth 1 u 0 - nth 0 u 0", "ct_df := nth 0 u 0 - nth 1 u 0", "C86", "sign of the spacing", "Met")
m("contrast_part", E, "photon_detector_SNR s wl tgt bkg", "photon_detector_SNR s wl bkg tgt", "C95", "target and background exchanged", "Met")
m("mtf_image", E, "finite (xabs x)", "finite x", "C95", "modulus not taken", "Met")
m("niirs_rest", E, "let gsd_y := ifov_y * slant_range in\n  let gsd_gm := xsqrt (Fin (gsd_x * gsd_y)) in", "let gsd_y := ifov_y * slant_range in\n  let gsd_gm := Fin gsd_x in", "C95", "only one axis in the ground sample distance", "Met")
m("niirs_rest", E, "let* ng := noise_gain (concat (s_kernel s)) in", "let* ng := Ok (Fin 1) in", "C95", "noise gain not computed", "Met")
m("niirs_rest", E, "let snr := xmul (xsqrt (Fin (s_frames s))) (m_snr (ct_snr ct)) in", "let snr := m_snr (ct_snr ct) in", "C85", "frame stacking ignored", "Met")
m("niirs_rest", E, "let snr := xmul (xsqrt (Fin (s_frames s))) (m_snr (ct_snr ct)) in", "let snr := xmul (Fin (s_frames s)) (m_snr (ct_snr ct)) in", "C85", "linear gain from stacking", "Met")
m("niirs_rest", E, "giqe3 rer gsd_gm eho ng snr; n_elev", "giqe3 rer gsd_gm ng eho snr; n_elev", "C95", "overshoot and noise gain exchanged", "Met")
m("niirs_rest", E, "let* slant_range := finite (curved_earth_slant_range 0 (altitude c) (ground_range c)) in\n  let* int_time := finite (m_int_time (ct_snr ct)) in\n  let* o := common_OTFs diag Np s c (ct_pts ct) (ct_wl ct) (ct_w ct) slant_range int_time in\n  let* ifov_x := pydiv (s_px s) (s_f s) in\n  let* ifov_y := pydiv (s_py s) (s_f s) in\n  let gsd_x := ifov_x * slant_range in\n  let gsd_y", "let* slant_range := finite (curved_earth_slant_range 0 (ground_range c) (altitude c)) in\n  let* int_time := finite (m_int_time (ct_snr ct)) in\n  let* o := common_OTFs diag Np s c (ct_pts ct) (ct_wl ct) (ct_w ct) slant_range int_time in\n  let* ifov_x := pydiv (s_px s) (s_f s) in\n  let* ifov_y := pydiv (s_py s) (s_f s) in\n  let gsd_x := ifov_x * slant_range in\n  let gsd_y", "C95", "altitude and ground range exchanged", "Met", "Sim")
m("niirs", E, "(c', let* ct := contrast_part s atm is_emissive in niirs_rest diag s c' ct)", "(c, let* ct := contrast_part s atm is_emissive in niirs_rest diag s c' ct)", "C83", "caller's scenario left alone (the finding would be gone)", "Met")
m("niirs", E, "| Err e => (c, Err e)\n  | Ok atm =>\n      let (is_emissive, c') := bookkeeping s c in\n      (c'", "| Err e => (snd (bookkeeping s c), Err e)\n  | Ok atm =>\n      let (is_emissive, c') := bookkeeping s c in\n      (c'", "C83", "scenario changed although loading failed", "Met")
m("no_sharpening", E, "s_kernel := [[1]]; s_frames := s_frames s |}.\nRecord niirs5", "s_kernel := s_kernel s; s_frames := s_frames s |}.\nRecord niirs5", "C82", "kernel kept (the finding would be gone)", "Met")
m("no_sharpening", E, "s_kernel := [[1]]; s_frames := s_frames s |}.\nRecord niirs5", "s_kernel := [[1]]; s_frames := 1 |}.\nRecord niirs5", "C82", "frame stacking reset as well", "Met")
m("niirs5_rest", E, "giqe5 rer_0 rer_90 (Fin gsd_x) (xmul (xsqrt (Fin (s_frames s))) (m_snr (ct_snr ct))) elev", "giqe5 rer_0 rer_90 (Fin gsd_x) (m_snr (ct_snr ct)) elev", "C85", "frame stacking ignored", "Met")
m("niirs5_rest", E, "giqe5 rer_0 rer_90 (Fin gsd_x)", "giqe5 rer_0 rer_0 (Fin gsd_x)", "C95", "one edge twice", "Met")
m("niirs5", E, "| Err e => (s, c', Err e)", "| Err e => (no_sharpening s, c', Err e)", "C82", "sensor changed although the contrast could not be computed", "Met")
m("niirs5", E, "let s' := no_sharpening s in (s', c', niirs5_rest diag s' c' ct)", "(s, c', niirs5_rest diag (no_sharpening s) c' ct)", "C82", "caller's sensor left alone (the finding would be gone)", "Met")
# simulation
m("instantaneous_FOV", S, "pydiv w f.", "pydiv f w.", "C92", "quotient upside down", "Sim")
m("wiener_filter", S, "xdiv (Fin (- im)) d", "xdiv (Fin im) d", "C89", "not conjugated", "Sim")
m("wiener_filter", S, "sqrt (re * re + im * im) * sqrt (re * re + im * im) + nsr", "sqrt (re * re + im * im) * sqrt (re * re + im * im) + nsr * nsr", "C89", "noise ratio squared", "Sim")
m("wiener_filter", S, "sqrt (re * re + im * im) * sqrt (re * re + im * im) + nsr", "sqrt (re * re + im * im) + nsr", "C89", "modulus not squared", "Sim")
m("interp1d_table", S, "then Ok (sort_by (combine x y))", "then Ok (combine x y)", "C87", "calibration points not sorted", "Sim")
m("interp1d_table", S, "Ok (sort_by (combine x y)) else Err ValueError", "Ok (sort_by (combine x y)) else Ok (sort_by (combine x y))", "C87", "different lengths accepted", "Sim")
m("extrapolate", S, "Nat.min (Nat.max (length (filter (fun p => Rltb (fst p) v) tab)) 1) (n - 1)", "Nat.min (length (filter (fun p => Rltb (fst p) v) tab)) (n - 1)", "C87", "lower clip missing: wrong segment below the table", "Sim")
m("extrapolate", S, "(Fin (v - fst lo))) (Fin (snd lo))", "(Fin (v - fst lo))) (Fin (snd hi))", "C87", "upper end used as base point", "Sim")
m("truncate01", S, "if xlt (Fin 1) r then Fin 1 else r", "if xlt (Fin 1) r then Fin 0 else r", "C87", "saturated pixels become black", "Sim")
m("truncate01", S, "if xlt r (Fin 0) then Fin 0 else r", "r", "C87", "negative reflectances not clipped", "Sim")
m("img_to_reflectance", S, "extrapolate tab (px a i j)", "extrapolate tab (px a j i)", "C87", "transposed", "Sim")
m("reference_init", S, "sr_pix := ri_pix r; sr_refl := ri_refl r", "sr_pix := ri_refl r; sr_refl := ri_pix r", "C88", "pixel and reflectance calibration exchanged", "Sim")
m("to_photoelectrons", S, "if xall (fun r => negb (xlt r (Fin (nth 0 ref 0))) && negb (xlt (Fin (last ref 0)) r)) a\n  then", "if true\n  then", "C88", "range check dropped", "Sim")
m("to_photoelectrons", S, "let* tab := interp_table ref pe in", "let* tab := interp_table pe ref in", "C88", "table inverted", "Sim")
m("rates_ok", S, "Rleb 0 (px a i j) &&", "Rltb 0 (px a i j) &&", "C96", "zero rate rejected", "Sim")
m("rates_ok", S, "Rleb 0 (px a i j) &&", "true &&", "C96", "negative rates accepted", "Sim")
m("add_noise", S, "(xmul g_noise (Fin (d_normal d i j)))", "(xmul (xsq g_noise) (Fin (d_normal d i j)))", "C91", "variance used as standard deviation", "Sim")
m("add_noise", S, "(Fin (INR (d_count d (px a i j) i j)))", "(Fin (px a i j + INR (d_count d (px a i j) i j)))", "C91", "counts added to the mean", "Sim")
m("g_noise_of", S, "(Fin (s_read s * s_read s))", "(Fin (s_read s))", "C91", "read noise not squared", "Sim")
m("g_noise_of", S, "xsqrt (xadd (xsq (quantization_noise (s_max_n s) (s_bits s)))", "xsqrt (xadd (xsq (quantization_noise (s_bits s) (s_max_n s)))", "C91", "arguments of the quantisation noise exchanged", "Sim")
m("slant_flat", S, "altitude c * altitude c + ground_range c * ground_range c", "altitude c * altitude c - ground_range c * ground_range c", "C93", "sign", "Sim")
m("simulate_otf", S, "(Rabs (nth 1 u 0 - nth 0 u 0) + Rabs (nth 0 v 0 - nth 1 v 0)) / 2", "(nth 1 u 0 - nth 0 u 0) + (nth 0 v 0 - nth 1 v 0)", "C97", "spacings added instead of averaged", "Sim")
m("simulate_otf", S, "(slant_flat c) (s_int_time s)", "(slant_flat c) 0", "C97", "integration time not passed", "Sim")
m("simulate_otf", S, "common_OTFs diag Np s c (meshgrid u v) wl w", "common_OTFs diag Np s c (meshgrid u v) wavelengths weights", "C88", "unselected wavelengths used", "Sim")
m("simulate_rest", S, "(s_int_time s) 300", "(s_int_time s) 280", "C88", "another background temperature", "Sim")
m("simulate_rest", S, "pydiv ((s_px s + s_py s) / 2) (s_f s)", "pydiv (s_px s) (s_f s)", "C88", "pitch of one axis instead of the mean", "Sim")
m("simulate_rest", S, "add_noise d (g_noise_of s) blur_img", "add_noise d (g_noise_of s) true_img", "C88", "noise added to the unblurred image", "Sim")
m("simulate_rest", S, "Ok (true_img, blur_img, noisy_img)", "Ok (blur_img, true_img, noisy_img)", "C88", "images returned in another order", "Sim")
m("simulate_rest", S, "(sr_pix r) (sr_refl r)", "(sr_refl r) (sr_pix r)", "C88", "calibration lists exchanged", "Sim")
m("simulate_image", S, "| (w', Err e) => (w', Err e)\n", "| (w', Err e) => (w, Err e)\n", "C100", "world not updated after an error (harmless: reading leaves it alone)", "Sim")
m("simulate_image", S, "Some m => simulate_rest diag d s (sc w') r m", "Some m => simulate_rest diag d s (sc w) r m", "C100", "scenario before loading used (harmless: same attributes)", "Sim")
m("simulate_image", S, "match nth_error (heap w') l with", "match nth_error (heap w') 0 with", "C100", "first array instead of the scenario's", "Sim")
m("xclip255", S, "xmin (Fin 255) (xmax (Fin 0) x)", "xmax (Fin 0) x", "C90", "no upper clip (wraps around)", "Sim")
m("xclip255", S, "xmin (Fin 255) (xmax (Fin 0) x)", "xmin (Fin 255) x", "C90", "no lower clip", "Sim")
m("to_uint8", S, "np_round r mod 256", "py_int r mod 256", "C90", "truncation instead of rounding", "Sim")
m("stretch_contrast_convert_8bit", S, "(hi / 255)", "(hi / 256)", "C90", "256 levels above zero", "Sim")
m("stretch_contrast_convert_8bit", S, "let l := map (fun x => x - lo) l in", "let l := l in", "C90", "offset not removed", "Sim")
m("stretch_contrast_convert_8bit", S, "[0.1; 99.9]", "[1; 99]", "C90", "other default percentiles", "Sim")
# plots
m("plot_noise_terms", P, "[m_total_noise ms; ct_scene_noise ct; ct_path_noise ct;", "[m_total_noise ms; ct_path_noise ct; ct_scene_noise ct;", "C105", "scene and path noise exchanged", "Plot")
m("plot_noise_terms", P, "m_dark_noise ms; m_quant_noise ms; Fin (s_read s)]", "m_quant_noise ms; m_dark_noise ms; Fin (s_read s)]", "C105", "dark and quantisation noise exchanged", "Plot")
m("plot_noise_terms", P, "Fin (s_read s)] in", "Fin (s_read s * s_read s)] in", "C105", "read noise squared", "Plot")
m("plot_noise_terms", P, "let* b := xint (xsub (m_tgt_n ms) (m_bkg_n ms)) in", "let* b := xint (xsub (m_bkg_n ms) (m_tgt_n ms)) in", "C105", "sign of the contrast", "Plot")
m("plot_noise_terms", P, "(xmul (m_well_fraction ms) (Fin 100))", "(m_well_fraction ms)", "C105", "fraction shown as percent", "Plot")
m("plot_noise_terms", P, "if Z.ltb 0 max_val then Some (IZR max_val) else None", "if Z.leb 0 max_val then Some (IZR max_val) else None", "C105", "default limit zero applied", "Plot")
m("common_MTFs_chart", P, "let* jit := mtf_slice ang (jit_OTF o) in", "let* jit := mtf_slice ang (drft_OTF o) in", "C106", "drift curve labelled jitter", "Plot")
m("common_MTFs_chart", P, "(0.001 * inv_f)", "(1000 * inv_f)", "C106", "unit of the frequency axis", "Plot")
m("common_MTFs_chart", P, "let* ny := pydiv 0.5 (ifov_x * s_f s) in", "let* ny := pydiv 1 (ifov_x * s_f s) in", "C106", "sampling frequency instead of Nyquist", "Plot")
m("common_MTFs_chart", P, "let* my := r_max fil in", "let* my := r_max sys in", "C106", "height of the axis", "Plot")
m("mtf_slice", P, "Ok (map Rabs v)", "Ok v", "C106", "modulus not taken", "Plot")
m("plot_common_MTFs", P, "annotate [\"xy\"; \"xy_text\"; \"arrow_props\"]", "annotate [\"xy\"; \"xytext\"; \"arrowprops\"]", "C106", "correct keywords (the finding would be gone)", "Plot")
m("plot_common_MTFs", P, "| Ok ch => (Some ch,", "| Ok ch => (None,", "C106", "nothing drawn before the error", "Plot")
