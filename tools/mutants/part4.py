# wrong programs against the theorems about whole runs, and against theorems no earlier edit reached
M = []
def m(definition, file, old, new, prop, claim, *targets):
    M.append(dict(definition=definition, file="Model_" + file, old=old, new=new, claim=prop + ": " + claim, targets=["Prop_" + t for t in targets]))
# C113 programs
m("no_sharpening", "Met", "s_kernel := [[1]]; s_frames := s_frames s |}", "s_kernel := [[1]]; s_frames := 1 |}", "C113", "niirs5 also forgets the number of frames", "Session")
m("no_sharpening", "Met", "s_pv := s_pv s;", "s_pv := 0;", "C113", "niirs5 also perfects the optics", "Session")
m("set_plain", "Met", "cache := cache c |}", "cache := None |}", "C113", "niirs drops the atmosphere the caller has edited", "Session")
m("set_plain", "Met", "interp := interp c;", "interp := negb (interp c);", "C113", "niirs changes the interpolation setting", "Session")
m("niirs5", "Met", "let s' := no_sharpening s in (s', c',", "let s' := no_sharpening s in (s, c',", "C113", "niirs5 works on a copy: later pictures keep the filter", "Session")
m("simulate_rest", "Sim", "add_noise d (g_noise_of s) blur_img", "add_noise d (xmul (Fin (plain c TargetReflectance)) (g_noise_of s)) blur_img", "C113", "noise scaled by the target reflectance", "Session")
m("niirs_rest", "Met", "let snr := xmul (xsqrt (Fin (s_frames s))) (m_snr (ct_snr ct)) in", "let snr := xmul (Fin (plain c BackgroundTemperature)) (m_snr (ct_snr ct)) in", "C113", "background temperature of the scenario enters the rating", "Session")
m("put", "Session", "if Nat.eqb i k then x", "if Nat.leb i k then x", "C113", "objects share their state", "Session")
m("step", "Scenario", "| Some l => (w, Ok (Array l))", "| Some l => ({| sc := s; heap := []; loads := loads w |}, Ok (Array l))", "C113", "the array is gone after it has been read", "Session")
# C85 frames
m("niirs5_rest", "Met", "giqe5 rer_0 rer_90 (Fin gsd_x) (xmul (xsqrt (Fin (s_frames s))) (m_snr (ct_snr ct))) elev", "giqe5 rer_0 rer_90 (Fin gsd_x) (xmul (Fin 1) (m_snr (ct_snr ct))) elev", "C85", "niirs5 ignores frame stacking", "Stack")
m("niirs5_rest", "Met", "giqe5 rer_0 rer_90 (Fin gsd_x) (xmul (xsqrt (Fin (s_frames s)))", "giqe5 rer_0 rer_90 (Fin gsd_x) (xmul (Fin (s_frames s))", "C85", "frames counted without the root", "Stack")
m("niirs_rest", "Met", "let snr := xmul (xsqrt (Fin (s_frames s))) (m_snr (ct_snr ct)) in", "let snr := xdiv (m_snr (ct_snr ct)) (xsqrt (Fin (s_frames s))) in", "C85", "more frames, less signal", "Stack")
m("niirs_rest", "Met", "giqe4 rer gsd_gm eho ng snr elev", "giqe4 rer gsd_gm eho ng (m_snr (ct_snr ct)) elev", "C85", "GIQE 4 with the single-frame ratio", "Stack")
m("niirs_rest", "Met", "n_niirs := giqe3 rer gsd_gm eho ng snr", "n_niirs := giqe3 rer gsd_gm eho ng (m_snr (ct_snr ct))", "C85", "GIQE 3 with the single-frame ratio", "Stack")
m("giqe3", "Met", "(xdiv ng snr).", "(xdiv snr ng).", "C85", "noise term inverted", "Stack")
m("giqe5", "Met", "(xdiv (Fin 1.8) snr)", "(xdiv (Fin (-1.8)) snr)", "C85", "sign of the noise term", "Stack")
m("giqe4", "Met", "(xdiv (xmul (Fin 0.334) ng) snr)", "(xmul (Fin 0.334) ng)", "C85", "GIQE 4 without the ratio", "Stack")
# C107 horizon
m("select", "Db", "(altitude / 1000)) d in", "(altitude / 100)) d in", "C107", "units of the altitude", "Horizon")
m("select", "Db", "(ground_range / 1000)) d.", "ground_range) d.", "C107", "units of the range", "Horizon")
m("alt_atm_interp", "Db", "let* high_atm := load_no_interp st high_alt ground_range ihaze in", "let* high_atm := load_no_interp st low_alt ground_range ihaze in", "C10", "the upper neighbour is not loaded", "Horizon", "Db")
m("alt_atm_interp", "Db", "let* low_atm := load_no_interp st low_alt ground_range ihaze in", "let* low_atm := load_no_interp st high_alt ground_range ihaze in", "C107", "targets behind the horizon of the sensor accepted", "Horizon")
m("load_interp", "Db", "py_last (filter (fun x => Rleb x ground_range) ground_ranges)", "py_first (filter (fun x => Rleb x ground_range) ground_ranges)", "C11", "range interpolated from zero", "Horizon", "Db")
m("load_interp", "Db", "if Rltb altitude amin || Rltb amax altitude then Err IndexError else", "if Rltb altitude amin || Rltb amax altitude then Err ValueError else", "C10", "another exception outside the altitudes", "Horizon")
m("load_no_interp", "Db", "| None => Err IndexError", "| None => Err ValueError", "C10", "another exception for a missing file", "Horizon")
m("row_alt_km", "Db", "let '(_, a, _, _) := r in IZR a / 10000", "let '(_, a, _, _) := r in IZR a / 11000", "C107", "500 km instead of 550 km as in the README, all other altitudes wrong", "Horizon")
m("altitude_array", "Db", "16000; 18000; 20000]", "16000; 18000; 20000; 24500]", "C107", "grid point 24.5 km added: its atmospheres reach less far", "Horizon")
m("load_no_interp", "Db", "match select altitude ground_range ihaze with\n  | [] => Err IndexError", "match select altitude ground_range ihaze with\n  | [] => match st 1%Z with Some f => let* d := reshape_F f in Ok (assemble d) | None => Err IndexError end", "C107", "first file as a fallback", "Horizon")
# C108 noise
m("giqe_radiance", "Rad", "let tgt_ref := 0.15 in let bkg_ref := 0.07 in", "let tgt_ref := 0.07 in let bkg_ref := 0.15 in", "C108", "reflectances exchanged: dark target", "Trade")
m("giqe_radiance", "Rad", "let tgt_temp := 282 in let bkg_temp := 280 in", "let tgt_temp := 280 in let bkg_temp := 282 in", "C108", "temperatures exchanged: cold target", "Trade")
m("photon_detector_SNR", "Rad", "(xsq quant)) (Fin (s_read s * s_read s)))", "(xsq quant)) (Fin 0))", "C108", "read noise forgotten", "Trade")
m("photon_detector_SNR", "Rad", "(xsq quant)) (Fin (s_read s * s_read s)))", "(xsq quant)) (Fin (s_read s)))", "C108", "read noise not squared", "Trade")
m("photon_detector_SNR", "Rad", "Rsum (map (fun x => x * x) (s_other_noise s))", "Rsum (map (fun x => - (x * x)) (s_other_noise s))", "C108", "other noise subtracted", "Trade")
m("photon_detector_SNR", "Rad", "m_snr := xdiv contrast total", "m_snr := xmul contrast total", "C108", "ratio multiplied", "Trade")
m("photon_detector_SNR", "Rad", "check_well_fill (xmax tgt_n0 bkg_n0) (s_max_fill s * s_max_n s)", "check_well_fill (xmax tgt_n0 bkg_n0) (s_max_fill s * s_max_n s - s_read s)", "C108", "read noise changes the exposure and with it the blur", "Trade")
m("quantization_noise", "Noise", "xdiv (Fin pe_range)", "xmul (Fin pe_range)", "C108", "finer quantisation, more noise", "Trade")
m("giqe4", "Met", "(xdiv (xmul (Fin 0.334) ng) snr)", "(xdiv (xmul (Fin (-0.334)) ng) snr)", "C108", "noise improves GIQE 4", "Trade")
m("giqe5", "Met", "(xdiv (Fin 1.8) snr)", "(xmul (Fin 1.8) snr)", "C108", "noise improves GIQE 5", "Trade")
# C109 blur
m("jitter_OTF", "Otf", "xexp (Fin (-2 * (PI * PI)", "xexp (Fin (2 * (PI * PI)", "C109", "jitter sharpens", "Dull")
m("wavefront_OTF", "Otf", "xexp (xmul (xopp pv)", "xexp (xmul pv", "C109", "wavefront error sharpens", "Dull")
m("hufnagel_valley_turbulence_profile", "Otf", "(xmul (Fin cn2_at_1m) (xexp", "(xmul (Fin (/ cn2_at_1m)) (xexp", "C109", "stronger turbulence, less of it", "Dull")
m("hufnagel_valley_turbulence_profile", "Otf", "((v / 27) * (v / 27))", "(v / 27)", "C109", "wind of negative sign clears the air", "Dull")
m("coherence_diameter", "Otf", "(- (3 / 5))", "(3 / 5)", "C109", "coherence grows with turbulence", "Dull")
m("relative_edge_response", "Met", "Ok (xsub a b)", "Ok (xsub b a)", "C109", "edge response of the wrong sign", "Dull")
m("giqe5", "Met", "(xmul (Fin 2) (xpown lr 4))", "(xmul (Fin (-2)) (xpown lr 4))", "C109", "poor edges raise the rating", "Dull")
m("turbulence_OTF", "Otf", "xsub (Fin 1) (xmul (Fin alpha)", "xadd (Fin 1) (xmul (Fin alpha)", "C56", "short-exposure correction of the wrong sign (still a blur)", "Otf", "Dull")
m("common_OTFs", "Otf", "(plain c HaWindSpeed) (plain c Cn2At1m) (int_time * s_ntdi s) (plain c AircraftSpeed)", "(plain c HaWindSpeed) (plain c Cn2At1m) (- int_time * s_ntdi s) (plain c AircraftSpeed)", "C109", "weight of the short exposure above one", "Dull")
# C110 rounding
m("nadir_angle_f64", "F64", "facos (-1 * (c * c - a * a - b * b) / (2 * a * b))", "let q := (-1 * (c * c - a * a - b * b) / (2 * a * b)) in facos (if PrimFloat.ltb 1 q then 1 else q)", "C110", "the cosine is cut off at one: no nan", "Nadir")
m("nadir_angle_f64", "F64", "facos (-1 * (c * c - a * a - b * b) / (2 * a * b))", "facos (((a - c) * (a + c) + b * b) / (2 * a * b))", "C110", "difference of squares factored", "Nadir")
m("slant_range_f64", "F64", "sqrt (c * c + a * a - 2 * a * c * fcos theta)", "sqrt ((a - c) * (a - c) + 2 * a * c * (1 - fcos theta))", "C110", "cancellation avoided", "Nadir")
m("slant_flat_f64", "F64", "sqrt (altitude * altitude + ground_range * ground_range)", "sqrt (altitude * altitude + ground_range * ground_range) * 1.0000001", "C110", "slant range too long", "Nadir")
m("r_earth_f64", "F64", "6378164", "6378137", "C110", "WGS 84 radius", "Nadir")
m("nadir_angle", "Geo", "Ok (xacos q)", "Ok (match q with Fin r => if Rltb 1 r then Fin 0 else xacos q | _ => xacos q end)", "C110", "no nan for a short slant range", "Nadir")
m("giqe4", "Met", "let gsd_gp := xdiv gsd (xpow (xsin elev) 0.5) in", "let gsd_gp := match elev with NaN => gsd | _ => xdiv gsd (xpow (xsin elev) 0.5) end in", "C110", "GIQE 4 without an elevation", "Nadir")
# C111 orientation
m("common_OTFs", "Otf", "jitter_OTF u v (s_sx s) (s_sy s)", "jitter_OTF u v (s_sx s) (s_sx s)", "C111", "jitter in x used twice", "Turn")
m("common_OTFs", "Otf", "detector_OTF u v (s_wx s) (s_wy s) (s_f s)", "detector_OTF u v (s_wx s) (s_wx s) (s_f s)", "C111", "pixel width used twice", "Turn")
m("common_OTFs", "Otf", "(s_day s * int_time * s_ntdi s)", "(s_dax s * int_time * s_ntdi s)", "C111", "drift in x used twice", "Turn")
m("common_OTFs", "Otf", "(s_Lx s) (s_Ly s)", "(s_Lx s) (s_Lx s)", "C111", "correlation length used twice", "Turn")
m("drift_OTF", "Otf", "xmul (xsinc (Fin (a_x * u))) (xsinc (Fin (a_y * v)))", "xmul (xsinc (Fin (a_x * u))) (xsinc (Fin (a_y * u)))", "C111", "drift along one axis", "Turn")
m("niirs_rest", "Met", "gsd_gm := xsqrt (Fin (gsd_x * gsd_y))", "gsd_gm := xsqrt (Fin (gsd_x * gsd_x))", "C111", "sampling distance from one axis", "Turn")
m("giqe_edge_terms", "Met", "let* v_eho := edge_height_overshoot v_slice df ifov_y in", "let* v_eho := edge_height_overshoot v_slice df ifov_x in", "C111", "overshoot with the other pitch", "Turn")
m("giqe5_RER", "Met", "let* rer_90 := relative_edge_response v_slice df ifov_y in", "let* rer_90 := relative_edge_response v_slice df ifov_x in", "C111", "edge response with the other pitch", "Turn")
m("niirs5_rest", "Met", "let gsd_x := ifov_x * slant_range in\n  let* mtf", "let gsd_x := ifov_y * slant_range in\n  let* mtf", "C111", "rating moves the other way", "Turn")
m("giqe5", "Met", "(xmul (xmax rer_1 rer_2) (xsq (xmin rer_1 rer_2)))", "(xmul rer_1 (xsq rer_2))", "C111", "edges weighted by axis", "Turn")
m("photon_detection_rate", "Rad", "(x * w_x * w_y)", "(x * w_x * w_x)", "C111", "square pixels assumed", "Turn")
m("contrast_part", "Met", "let v := freqs 1 (-1) cutoff in", "let v := freqs (-1) 1 cutoff in", "C111", "frequencies along v not reversed (the transfer function is even, but its picture is mirrored)", "Turn")
# C112 gain
m("ref_image_init", "Sensor", "percentile img 99.8", "percentile img 99", "C112", "percentiles not symmetric", "Gain")
m("ref_image_init", "Sensor", "[0.05; 0.95]", "[0.05; 0.9]", "C112", "reflectances not symmetric", "Gain")
m("ref_image_init", "Sensor", "ri_pix := [lo; hi]", "ri_pix := [0; hi]", "C112", "black at pixel value zero", "Gain")
m("interp1d_table", "Sim", "Ok (sort_by (combine x y))", "Ok (combine x y)", "C112", "table not sorted", "Gain")
m("extrapolate", "Sim", "(Fin (v - fst lo))) (Fin (snd lo))", "(Fin v)) (Fin (snd lo))", "C112", "offset forgotten", "Gain")
m("extrapolate", "Sim", "(Fin (snd hi - snd lo)) (Fin (fst hi - fst lo))", "(Fin (snd hi - snd lo)) (Fin (Rabs (fst hi - fst lo) + 1))", "C112", "gain regularised", "Gain")
m("truncate01", "Sim", "if xlt r (Fin 0) then Fin 0 else r.", "r.", "C112", "negative reflectances kept", "Gain")
m("truncate01", "Sim", "if xlt (Fin 1) r then Fin 1 else r in", "if xlt (Fin 0.9) r then Fin 0.9 else r in", "C112", "white cut off at 0.9", "Gain")
m("img_to_reflectance", "Sim", "truncate01 (extrapolate tab (px a i j))", "truncate01 (extrapolate tab (Rmin 255 (px a i j)))", "C112", "pixel values limited to 8 bits", "Gain")
m("limit_to_well", "Rad", "if xlt (Fin 1) sat then map (fun p => xdiv p sat) pe else pe", "pe", "C112", "bright pixels cut off instead of a shorter exposure", "Gain")
m("pe_at", "Rad", "total_radiance atm reflectance 300", "total_radiance atm (reflectance * reflectance) 300", "C112", "response not linear in the reflectance", "Gain")
# properties without an edit of their own
m("blackbody_radiance1", "Rad", "(Fin (lambda0 ^ 5))", "(Fin (lambda0 ^ 4))", "C24", "power of the wavelength", "Rad")
m("blackbody_radiance1", "Rad", "(Fin (lambda0 * kc * T))", "(Fin (lambda0 * kc * T * T))", "C24", "temperature squared", "Rad")
m("photon_detector_SNR", "Rad", "xsqrt (xmax tgt_n bkg_n)", "xmax tgt_n bkg_n", "C36", "shot noise grows like the signal", "Rad")
m("photon_detector_SNR", "Rad", "let tgt_n0 := xmul (xmul tgt_rate (Fin (s_int_time s))) (Fin (s_ntdi s)) in", "let tgt_n0 := xmul tgt_rate (Fin (s_int_time s)) in", "C36", "stages forgotten for the target", "Rad")
m("reflectance_to_photoelectrons", "Rad", "let* out := mapM (pe_at s atm int_time) ref in", "let* out := mapM (fun r => let* p := pe_at s atm int_time r in Ok (xmul (Fin (target_temp / 300)) (fst p), snd p)) ref in", "C40", "target temperature has an effect", "Rad")
m("apply_otf_to_image", "Img", "let* sim_psf := resample_2D (join kr ki) psf dx (Fin ifov) in", "let* sim_psf := Ok psf in", "C94", "kernel not resampled: no error", "Img")
m("xint_round", "Img", "Fin r => Ok (np_round r)", "Fin r => Ok (Z.max 1 (np_round r))", "C94", "at least one pixel: no error", "Img")
m("otf_to_psf", "Img", "cv_resize psf (Z.max 1 x) (Z.max 1 y)", "cv_resize psf x y", "C98", "coarse scenes raise", "Sim")
m("freqs_sim", "Sim", "(linspace a b n_sim)", "(linspace 0 b n_sim)", "C99", "frequencies not centred", "Sim")
m("n_sim", "Sim", "n_sim : nat := 1501", "n_sim : nat := 1500", "C99", "even number of frequencies: no centre", "Sim")
# theorems no edit has reached
m("reference", "Sensor", "ri_pix := p; ri_refl := r", "ri_pix := p; ri_refl := map (fun _ => 0.5) r", "C21", "given reflectances not stored", "Sensor")
m("ref_image_init", "Sensor", "ri_pix := [lo; hi]; ri_refl := [0.05; 0.95]", "ri_pix := [lo; hi]; ri_refl := match refl with Some r => r | None => [0.05; 0.95] end", "C21", "reflectances without pixel values used", "Sensor")
m("photon_detection_rate", "Rad", "let* a := bmap2 (fun l q => l / (hc * cc) * q) wl qe in", "let a := map2 (fun l q => l / (hc * cc) * q) wl qe in", "C27", "lengths not checked", "Rad")
m("photon_detection_rate", "Rad", "bmap2 (fun x e => xmul (Fin (x * w_x * w_y)) e) a E.", "Ok (map2 (fun x e => xmul (Fin (x * w_x * w_y)) e) a E).", "C27", "length of the irradiance not checked", "Rad")
m("resample_by_wavelength", "Rad", "let* tab := interp_table wl values in", "let tab := combine wl values in", "C28", "lengths not checked", "Rad")
m("detector_OTF_with_aggregation", "Otf", "(match n with O => Py | _ => Np end)", "Np", "C49", "no exception for zero pixels", "Otf")
m("filter_OTF", "Otf", "let* nyquist := pydiv 0.5 ifov in", "let nyquist := 0.5 / ifov in", "C52", "no exception for a zero field of view", "System")
m("wind_speed_turbulence_OTF", "Otf", "let* e := kdiv k (Fin (- vel * t_d)) r0 in", "let e := xdiv (Fin (- vel * t_d)) r0 in", "C56", "no exception for r0 = 0", "Otf")
m("weighted_by_wavelength", "Otf", "| _, _ => Err IndexError\n  end.\n\n(* 1008", "| _, _ => Ok []\n  end.\n\n(* 1008", "C60", "no exception for empty bands", "System")
m("coherence_diameter", "Otf", "(xdiv z zm) (5 / 3)", "(xdiv z zm) (11 / 3)", "C61", "wrong weight along the path", "Chain")
m("coherence_diameter", "Otf", "(Fin 0.423)", "(Fin 0.16)", "C61", "wrong constant", "Chain")
m("object_domain_defocus_radii", "Otf", "let* b := pydiv 1 R1 in", "let b := 1 / R1 in", "C63", "no exception for zero range", "Otf")
m("qdiv", "Img", "if Reqb r 0 then Err ZeroDivisionError else Ok (xdiv a b)", "Ok (xdiv a b)", "C72", "no exception for zero spacing", "Img")
m("extrapolate", "Sim", "Nat.min (Nat.max (length (filter (fun p => Rltb (fst p) v) tab)) 1) (n - 1)", "Nat.max (length (filter (fun p => Rltb (fst p) v) tab)) 1", "C87", "index past the end of the table", "Sim")
m("interp1d_table", "Sim", "| [] => Err ValueError\n  | _ => if Nat.eqb", "| [] => Err ValueError\n  | [_] => Err ValueError\n  | _ => if Nat.eqb", "C87", "single points rejected", "Sim")
m("reflectance_to_photoelectrons", "Rad", "map (fun w => xdiv w top) weights", "weights", "C96", "weights not normalised: no nan without a signal", "Sim")
m("circular_aperture_OTF_with_defocus", "Otf", "(xsub (xmul (Fin 2) beta) (xsin (xmul (Fin 2) beta)))", "(xsub (xmul (Fin 2) beta) (xsin beta))", "C103", "overlap of the pupils in focus", "Defocus")
m("circular_aperture_OTF_with_defocus", "Otf", "xmul (Fin (1 / PI)) (xsub", "xmul (Fin (2 / PI)) (xsub", "C103", "normalisation in focus", "Defocus")
m("decoder", "DbTable", "(2,20,100,1);", "(1,20,100,1);", "C09", "two ranges share a file", "Db")
m("decoder", "DbTable", "(3,20,500,1);", "(3,20,501,1);", "C107", "a documented range is not stored", "Horizon")
