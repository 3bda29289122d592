# wrong programs against the closed forms of filter_OTF, niirs and niirs5
M = []
def m(definition, file, old, new, prop, claim, *targets):
    M.append(dict(definition=definition, file=file if file.startswith("Base") else "Model_" + file, old=old, new=new, claim=prop + ": " + claim, targets=["Prop_" + t for t in targets]))
O = "Otf"; T = "Met"
# C52: values between the samples
m("tri", O, "if Rleb t s then f00 + s * (f01 - f00) + t * (f11 - f01)", "if Rleb s t then f00 + s * (f01 - f00) + t * (f11 - f01)", "C52", "the wrong triangle of a cell", "Reading")
m("tri", O, "if Rleb t s then f00 + s * (f01 - f00) + t * (f11 - f01)\n    else f00 + t * (f10 - f00) + s * (f11 - f10)", "(1 - s) * (1 - t) * f00 + s * (1 - t) * f01 + (1 - s) * t * f10 + s * t * f11", "C52", "bilinear instead of triangles", "Reading")
m("tri", O, "if Rleb (s + t) 1 then f00 + s * (f01 - f00) + t * (f10 - f00)", "if Rleb (s + t) 1 then f00", "C52", "nearest sample in the upper triangle", "Reading")
m("tri", O, "else f11 + (1 - s) * (f10 - f11) + (1 - t) * (f01 - f11).", "else f11 + (1 - t) * (f10 - f11) + (1 - s) * (f01 - f11).", "C52", "weights of the lower triangle exchanged", "Reading")
m("wrap_val", O, "pymod (value + nyquist) (2 * nyquist) - nyquist", "pymod (value + nyquist) (2 * nyquist)", "C52", "folded into [0, 2 Nyquist)", "Reading")
m("wrap_val", O, "pymod (value + nyquist) (2 * nyquist) - nyquist", "value", "C52", "frequencies not folded", "Reading")
m("cell", O, "Nat.min (n_filt - 2)", "Nat.min (n_filt - 3)", "C52", "last cell extrapolated from the one before", "Reading")
m("filter_OTF", O, "let y := (nyquist - wrap_val v nyquist) / (2 * nyquist)", "let y := (nyquist + wrap_val v nyquist) / (2 * nyquist)", "C52", "rows read bottom up", "Reading")
m("filter_OTF", O, "let x := (wrap_val u nyquist + nyquist) / (2 * nyquist) * INR (n_filt - 1) in", "let x := (wrap_val u nyquist + nyquist) / (2 * nyquist) * INR n_filt in", "C52", "columns spaced by Nyquist/50", "Reading")
m("filter_OTF", O, "Ok (Fin (tri (diag i j) (xfer kernel i j) (xfer kernel i (j + 1))", "Ok (Fin (tri (diag i j) (xfer kernel i j) (xfer kernel (i + 1) j)", "C52", "a corner of the cell read twice", "Reading")
m("xfer", O, "let j' := Nat.modulo (i + n_filt / 2) n_filt in", "let j' := i in", "C52", "no fftshift along the rows", "Reading")
m("dft_im", O, "(INR (j * a) + INR (k * b)) / INR n_filt)))", "(INR (j * b) + INR (k * a)) / INR n_filt)))", "C52", "axes exchanged in the imaginary part", "Reading")
# C121
m("niirs_rest", T, "let* slant_range := finite (curved_earth_slant_range 0 (altitude c) (ground_range c)) in\n  let* int_time := finite (m_int_time (ct_snr ct)) in\n  let* o := common_OTFs diag Np s c (ct_pts ct) (ct_wl ct) (ct_w ct) slant_range int_time in\n  let* ifov_x := pydiv (s_px s) (s_f s) in\n  let* ifov_y := pydiv (s_py s) (s_f s) in\n  let gsd_x := ifov_x * slant_range in\n  let gsd_y",
  "let* slant_range := finite (curved_earth_slant_range 0 (altitude c) (ground_range c)) in\n  let* int_time := Ok (s_int_time s) in\n  let* o := common_OTFs diag Np s c (ct_pts ct) (ct_wl ct) (ct_w ct) slant_range int_time in\n  let* ifov_x := pydiv (s_px s) (s_f s) in\n  let* ifov_y := pydiv (s_py s) (s_f s) in\n  let gsd_x := ifov_x * slant_range in\n  let gsd_y", "C121", "niirs: blur for the time asked for instead of the time used", "Rating")
m("niirs_rest", T, "let gsd_gm := xsqrt (Fin (gsd_x * gsd_y)) in", "let gsd_gm := Fin ((gsd_x + gsd_y) / 2) in", "C121", "niirs: arithmetic mean of the sample distances", "Rating")
m("niirs_rest", T, "let snr := xmul (xsqrt (Fin (s_frames s))) (m_snr (ct_snr ct)) in", "let snr := xmul (Fin (s_frames s)) (m_snr (ct_snr ct)) in", "C121", "niirs: frames instead of their root", "Rating")
m("niirs_rest", T, "n_niirs := giqe3 rer gsd_gm eho ng snr;", "n_niirs := giqe3 rer gsd_gp eho ng snr;", "C121", "niirs: GIQE 3 with the projected sample distance", "Rating")
m("niirs_rest", T, "n_niirs := giqe3 rer gsd_gm eho ng snr;", "n_niirs := giqe3 rer gsd_gm eho ng (m_snr (ct_snr ct));", "C121", "niirs: GIQE 3 ignores the frames", "Rating")
m("niirs_rest", T, "giqe_edge_terms mtf (ct_df ct) ifov_x ifov_y in", "giqe_edge_terms mtf (ct_df ct) ifov_y ifov_x in", "C121", "niirs: pixel angles exchanged", "Rating")
m("niirs_rest", T, "let* ng := noise_gain (concat (s_kernel s)) in", "let* ng := Ok (Fin 1) in", "C121", "niirs: noise gain forgotten", "Rating")
m("niirs5_rest", T, "let* (rer_0, rer_90) := giqe5_RER mtf (ct_df ct) ifov_x ifov_y in", "let* (rer_90, rer_0) := giqe5_RER mtf (ct_df ct) ifov_x ifov_y in", "C121", "niirs5: edge responses exchanged in the result", "Rating")
m("niirs5_rest", T, "giqe5 rer_0 rer_90 (Fin gsd_x)", "giqe5 rer_0 rer_0 (Fin gsd_x)", "C121", "niirs5: one edge response used twice", "Rating")
m("niirs5_rest", T, "(xmul (xsqrt (Fin (s_frames s))) (m_snr (ct_snr ct))) elev in", "(m_snr (ct_snr ct)) elev in", "C121", "niirs5: frames forgotten", "Rating")
m("niirs5", T, "(s', c', niirs5_rest diag s' c' ct)", "(s', c', niirs5_rest diag s c' ct)", "C121", "niirs5: blurred with the sharpening kernel", "Rating")
m("contrast_part", T, "let* cutoff := finite (xdiv (Fin (s_D s)) (Fin lmin)) in", "let* cutoff := finite (xdiv (Fin (s_D s)) (Fin (last wl' 0))) in", "C121", "cutoff of the last wavelength", "Rating")
m("contrast_part", T, "let v := freqs 1 (-1) cutoff in", "let v := freqs (-1) 1 cutoff in", "C121", "vertical frequencies bottom up (equal by symmetry unless there is a kernel)", "Rating")
m("contrast_part", T, "positive_weights wl (m_weights m) in", "positive_weights wl (m_tgt_irr m) in", "C121", "irradiance instead of photoelectrons as weights", "Rating")
m("giqe_edge_terms", T, "let* v_eho := edge_height_overshoot v_slice df ifov_y in", "let* v_eho := edge_height_overshoot u_slice df ifov_y in", "C121", "overshoot along one axis twice", "Rating")
m("giqe5_RER", T, "let* rer_90 := relative_edge_response v_slice df ifov_y in", "let* rer_90 := relative_edge_response v_slice df ifov_x in", "C121", "edge response along y with the pixel angle of x", "Rating")
m("edge_height_overshoot", T, "then Ok (nth 1 er NaN)", "then Ok (nth 0 er NaN)", "C121", "first sample of a rising edge response", "Rating")
m("bookkeeping", T, "set_plain TargetReflectance 0.15 c)).", "set_plain Cn2At1m 0 (set_plain TargetReflectance 0.15 c))).", "C121", "visible light: turbulence switched off", "Rating")
m("photon_detector_SNR", "Rad", "let scale_factor := check_well_fill (xmax tgt_n0 bkg_n0)", "let scale_factor := check_well_fill tgt_n0", "C121", "exposure limited by the target only", "Rating")
m("photon_detector_SNR", "Rad", "let signal_noise := xsqrt (xmax tgt_n bkg_n) in", "let signal_noise := xsqrt tgt_n in", "C121", "photon noise of the target only", "Rating")
m("photon_detector_SNR", "Rad", "(Fin (s_read s * s_read s)))\n", "(Fin (s_read s)))\n", "C121", "read noise not squared", "Rating")
m("photon_detector_SNR", "Rad", "m_snr := xdiv contrast total |}.", "m_snr := xdiv contrast signal_noise |}.", "C121", "photon-limited ratio", "Rating")
m("giqe_radiance", "Rad", "let tgt_temp := 282 in", "let tgt_temp := 283 in", "C121", "target a degree warmer", "Rating")
m("elev_angle", "Geo", "Ok (xsub (Fin (PI / 2)) n).", "Ok n.", "C121", "nadir angle instead of the elevation", "Rating")
m("common_OTFs", O, "(plain c HaWindSpeed) (plain c Cn2At1m) (int_time * s_ntdi s) (plain c AircraftSpeed)", "(plain c HaWindSpeed) (plain c Cn2At1m) int_time (plain c AircraftSpeed)", "C121", "air moves past for one TDI stage only", "Rating")
# C79, C80
m("giqe4", T, "xmul (Fin 0.334) ng", "xmul (Fin 0.344) ng", "C79", "the published coefficient", "Rating", "Met")
m("giqe4", T, "xpow (xsin elev) 0.5", "xpow (xsin elev) 0.25", "C79", "fourth root of the elevation's sine", "Rating")
m("giqe5", T, "(xsq (xmin rer_1 rer_2))", "(match xmin rer_1 rer_2 with Fin a => Fin (a * Rabs a) | o => xsq o end)", "C80", "sign of a reversed edge kept", "Rating")
