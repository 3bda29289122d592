# realistic wrong programs: (definition, file, old text, new text, property, what goes wrong, Prop files)
M = []
def m(definition, file, old, new, prop, claim, *targets):
    M.append(dict(definition=definition, file="Model_" + file, old=old, new=new, claim=prop + ": " + claim, targets=["Prop_" + t for t in targets]))
G, N, D, S, Q, R = "Geo", "Noise", "Db", "Scenario", "Sensor", "Rad"
# geospatial.py
m("curved_earth_slant_range", G, "let theta := ground_range / r_earth in", "let theta := ground_range / (r_earth + h_target) in", "C01", "arc length measured at the target's height instead of sea level", "Geo")
m("curved_earth_slant_range", G, "(c * c + a * a - 2 * a * c * cos theta)", "(c * c + a * a + 2 * a * c * cos theta)", "C01", "sign of the cosine law", "Geo")
m("curved_earth_slant_range", G, "xsqrt (Fin (c * c + a * a - 2 * a * c * cos theta))", "xsqrt (Fin ((h_sensor - h_target) * (h_sensor - h_target) + ground_range * ground_range))", "C01", "flat-earth approximation", "Geo")
m("r_earth", G, "Definition r_earth : R := 6378164.", "Definition r_earth : R := 6378137.", "C04", "another Earth radius than documented", "Geo")
m("nadir_angle", G, "(c * c - a * a - b * b)", "(c * c - a * a + b * b)", "C02", "sign of one square in the cosine law", "Geo")
m("nadir_angle", G, "let c := r_earth + h_target in\n  let* q", "let c := r_earth in\n  let* q", "C02", "target height forgotten", "Geo")
m("nadir_angle", G, "Ok (xacos q).", "Ok (xsub (Fin PI) (xacos q)).", "C02", "supplementary angle (zenith instead of nadir)", "Geo")
m("altitude_along_slant_path", G, "rev (map (fun c => xsub c (Fin r_earth)) c)", "map (fun c => xsub c (Fin r_earth)) c", "C03", "path not reversed: heights start at the sensor", "Geo")
m("altitude_along_slant_path", G, "let a := r_earth + h_sensor in\n  let b := linspace", "let a := r_earth + h_target in\n  let b := linspace", "C03", "path measured from the wrong end", "Geo")
m("altitude_along_slant_path", G, "linspace 0 slant_range n_path", "linspace 0 (slant_range / 2) n_path", "C03", "only half of the path is sampled", "Geo")
m("altitude_along_slant_path", G, "xsub c (Fin r_earth)", "c", "C04", "distance from the Earth's centre returned instead of height", "Geo")
m("elev_angle", G, "Ok (xsub (Fin (PI / 2)) n)", "Ok n", "C05", "nadir angle used as elevation angle", "Geo")
m("elev_angle", G, "nadir_angle Np 0 altitude slant_range", "nadir_angle Np altitude 0 slant_range", "C05", "target and sensor heights exchanged (elevation at the target)", "Geo")
# noise.py
m("noise_gain", N, "if negb (Reqb (Rsum kernel) 1) then Err ValueError\n  else", "if false then Err ValueError\n  else", "C06", "normalisation check dropped", "Noise")
m("noise_gain", N, "if negb (Reqb (Rsum kernel) 1)", "if negb (Reqb (Rsum (map Rabs kernel)) 1)", "C06", "absolute values summed in the check", "Noise")
m("noise_gain", N, "xsqrt (Fin (Rsum (map (fun k => k * k) kernel)))", "Fin (Rsum (map (fun k => k * k) kernel))", "C06", "variance instead of standard deviation", "Noise")
m("noise_gain", N, "(fun k => k * k)", "(fun k => Rabs k)", "C06", "L1 norm instead of L2", "Noise")
m("noise_gain", N, "Err ValueError", "Err TypeError", "C06", "another exception", "Noise")
m("quantization_noise", N, "(Rpower 2 bit_depth - 1)", "(Rpower 2 bit_depth)", "C08", "number of levels instead of number of steps", "Noise")
m("quantization_noise", N, "sqrt 12 * (", "12 * (", "C08", "variance factor instead of its root", "Noise")
m("quantization_noise", N, "Rpower 2 bit_depth", "(2 * bit_depth)", "C08", "bits multiplied instead of exponentiated", "Noise")
# binary64
m("noise_gain_f64", "F64", "PrimFloat.eqb (f_sum kernel) 1", "PrimFloat.leb (abs (f_sum kernel - 1)) 0x1p-40", "C07", "check with a tolerance (the finding would be gone)", "Noise")
m("check_well_fill_f64", "F64", "then max_fill / total else 1", "then (max_fill - 0x1p-30) / total else 1", "C32", "safety margin (the finding would be gone)", "Rad")
# utils.py
m("select", D, "Z.eqb (row_ihaze r) ihaze", "Z.eqb ihaze ihaze", "C09", "haze model ignored in the lookup", "Db")
m("select", D, "Reqb (row_alt_km r) (altitude / 1000)", "Reqb (row_alt_km r) altitude", "C09", "metres compared with kilometres", "Db")
m("select", D, "Reqb (row_range_km r) (ground_range / 1000)", "Rleb (ground_range / 1000) (row_range_km r)", "C09", "next larger ground range accepted instead of equality", "Db")
m("row_range_km", D, "let '(_, _, g, _) := r in IZR g / 1000", "let '(_, a, _, _) := r in IZR a / 10000", "C09", "altitude column read for the ground range", "Db")
m("assemble", D, "| 1%nat => d i 0%nat", "| 1%nat => d i 1%nat", "C09", "transmission column off by one", "Db")
m("assemble", D, "d i k / (/ 10 ^ 10)", "d i k / (/ 10 ^ 4)", "C09", "unit conversion of the radiance columns", "Db")
m("wavelength", D, "linspace 0.3 14 n_wave", "linspace 0.3 14.3 n_wave", "C13", "last wavelength wrong", "Db")
m("wavelength", D, "/ 10 ^ 6 * nth i", "/ 10 ^ 9 * nth i", "C13", "nanometres instead of micrometres", "Db")
m("load_no_interp", D, "| [] => Err IndexError\n  | r :: _ =>", "| [] => match st 0%Z with None => Err IndexError | Some d => Ok (assemble d) end\n  | r :: _ =>", "C09", "first file returned when nothing matches", "Db")
m("load_no_interp", D, "| None => Err IndexError\n      | Some d", "| None => Err ValueError\n      | Some d", "C09", "another exception for a missing file", "Db")
m("get_ground_range_array", D, "np_arange 1000 20000.01 1000", "np_arange 1000 20000 1000", "C11", "arange stops before 20000 m", "Db")
m("get_ground_range_array", D, "Rleb x max_ground_range", "Rltb x max_ground_range", "C10", "upper end excluded (not reachable with 301000: equivalent)", "Db")
m("get_ground_range_array", D, "np_arange 85000 300000.01 5000", "np_arange 80000 300000.01 5000", "C12", "a node twice", "Db")
m("altitude_array", D, "[2; 32.55; 75;", "[2; 75;", "C14", "the documented altitude removed from the node list", "Db")
m("altitude_array", D, "[2; 32.55; 75;", "[2; 32.5; 75;", "C14", "typing error repaired (the finding would be gone)", "Db")
m("altitude_array", D, "9000; 10000; 11000; 12000; 14000;", "9000; 10000; 11000; 12000; 13000; 14000;", "C14", "a node without a file", "Db")
m("alt_atm_interp", D, "let low_weight := 1 - (altitude - low_alt) / (high_alt - low_alt) in", "let low_weight := (altitude - low_alt) / (high_alt - low_alt) in", "C12", "both weights equal", "Db")
m("alt_atm_interp", D, "Ok (blend low_weight high_weight low_atm high_atm)", "Ok (blend high_weight low_weight low_atm high_atm)", "C12", "weights exchanged", "Db")
m("alt_atm_interp", D, "load_no_interp st high_alt ground_range ihaze", "load_no_interp st high_alt ground_range 1", "C12", "haze model of the upper node fixed", "Db")
m("load_interp", D, "Rltb altitude amin || Rltb amax altitude", "Rltb altitude amin", "C10", "no upper limit for the altitude", "Db")
m("load_interp", D, "Rltb ground_range gmin || Rltb gmax ground_range", "Rltb ground_range 1 || Rltb gmax ground_range", "C10", "ground range 0 rejected", "Db")
m("load_interp", D, "py_first (filter (fun x => Rleb altitude x) altitude_array)", "py_first (filter (fun x => Rltb altitude x) altitude_array)", "C11", "strict comparison: highest node fails", "Db")
m("load_interp", D, "let low_weight := 1 - (ground_range - low_range) / (high_range - low_range) in", "let low_weight := 1 - (ground_range - low_range) / high_range in", "C12", "wrong denominator for the range weight", "Db")
m("load_interp", D, "let* atm_high_range := alt_atm_interp st low_alt high_alt altitude high_range ihaze in", "let* atm_high_range := alt_atm_interp st low_alt high_alt altitude low_range ihaze in", "C15", "upper range never used", "Db")
# scenario.py
m("step/SetIhaze", S, "| SetIhaze z => (upd_scen w {| ihaze := z; altitude := altitude s; ground_range := ground_range s;\n                      interp := interp s; plain := plain s; cache := None |}", "| SetIhaze z => (upd_scen w {| ihaze := z; altitude := altitude s; ground_range := ground_range s;\n                      interp := interp s; plain := plain s; cache := cache s |}", "C16", "cache not dropped when the haze model changes", "Scenario")
m("step/SetAltitude", S, "| SetAltitude r => (upd_scen w {| ihaze := ihaze s; altitude := r; ground_range := ground_range s;\n                      interp := interp s; plain := plain s; cache := None |}", "| SetAltitude r => (upd_scen w {| ihaze := ihaze s; altitude := r; ground_range := ground_range s;\n                      interp := interp s; plain := plain s; cache := cache s |}", "C16", "cache not dropped when the altitude changes", "Scenario")
m("step/SetGroundRange", S, "| SetGroundRange r => (upd_scen w {| ihaze := ihaze s; altitude := altitude s; ground_range := r;\n                      interp := interp s; plain := plain s; cache := None |}", "| SetGroundRange r => (upd_scen w {| ihaze := ihaze s; altitude := altitude s; ground_range := r;\n                      interp := interp s; plain := plain s; cache := cache s |}", "C16", "cache not dropped when the ground range changes", "Scenario")
m("step/SetGroundRange", S, "| SetGroundRange r => (upd_scen w {| ihaze := ihaze s; altitude := altitude s; ground_range := r;", "| SetGroundRange r => (upd_scen w {| ihaze := ihaze s; altitude := r; ground_range := ground_range s;", "C101", "setter writes the wrong attribute", "Scenario")
m("step/SetPlain", S, "plain := fun b => if attr_eqb a b then r else plain s b; cache := cache s", "plain := fun b => if attr_eqb a b then r else plain s b; cache := None", "C17", "cache dropped on attributes that do not matter", "Scenario")
m("step/SetPlain", S, "if attr_eqb a b then r else plain s b", "r", "C101", "one assignment changes all attributes", "Scenario")
m("step/ReadAtm", S, "| Some l => (w, Ok (Array l))", "| Some l => ({| sc := s; heap := heap w ++ [nth l (heap w) (fun _ _ => 0)]; loads := loads w |}, Ok (Array (length (heap w))))", "C19", "a copy is returned (the finding would be gone)", "Scenario")
m("step/ReadAtm", S, "if interp s then interp_load (altitude s) (ground_range s) (ihaze s)", "if interp s then no_interp_load (altitude s) (ground_range s) (ihaze s)", "C16", "interpolation flag ignored", "Scenario")
m("step/ReadAtm", S, "else no_interp_load (altitude s) (ground_range s) (ihaze s) in", "else no_interp_load (ground_range s) (altitude s) (ihaze s) in", "C16", "arguments of the loader exchanged", "Scenario")
m("step/ReadAtm", S, "| Err e => (w, Err e)\n          | Ok m", "| Err e => (upd_scen w {| ihaze := ihaze s; altitude := 0; ground_range := ground_range s; interp := interp s; plain := plain s; cache := None |}, Err e)\n          | Ok m", "C18", "a failed load changes the altitude", "Scenario")
m("step/ReadAtm", S, "interp := interp s; plain := plain s; cache := Some l |};", "interp := interp s; plain := plain s; cache := None |};", "C17", "cache never filled", "Scenario")
m("step/ReadAtm", S, "heap := heap w ++ [m]; loads", "heap := [m]; loads", "C16", "earlier arrays lost", "Scenario")
m("step/Poke", S, "set_nth l (poke_atm m i j v) (heap w)", "heap w", "C19", "writes to the returned array have no effect (the finding would be gone)", "Scenario")
# sensor.py, ref_image.py
m("sensor_init", Q, "let py := match p_y with None => p_x", "let py := match p_y with None => D", "C20", "default pitch", "Sensor")
m("sensor_init", Q, "let* q := pydiv p_x wx in Ok (q * py)", "let* q := pydiv wx p_x in Ok (q * py)", "C20", "fill factor the right way round (the finding would be gone)", "Sensor")
m("sensor_init", Q, "s_Lx := D; s_Ly := D;", "s_Lx := f; s_Ly := f;", "C20", "correlation lengths default to the focal length", "Sensor")
m("sensor_init", Q, "s_otr := repeat 1 (length wl)", "s_otr := repeat 0 (length wl)", "C20", "opaque optics by default", "Sensor")
m("sensor_init", Q, "s_T_shield := k_T_shield kw; s_T_opt := k_T_opt kw;", "s_T_shield := k_T_opt kw; s_T_opt := k_T_shield kw;", "C20", "two temperatures exchanged", "Sensor")
m("default_kw", Q, "k_ntdi := 1;", "k_ntdi := 0;", "C20", "default number of TDI stages", "Sensor")
m("default_kw", Q, "k_pv_wl := 0.633 / 10 ^ 6", "k_pv_wl := 0.633 / 10 ^ 3", "C20", "units of the reference wavelength", "Sensor")
m("ref_image_init", Q, "percentile img 99.8", "percentile img 98", "C21", "upper percentile", "Sensor")
m("ref_image_init", Q, "ri_refl := [0.05; 0.95]", "ri_refl := [0.5; 0.95]", "C21", "lower default reflectance", "Sensor")
m("ref_image_init", Q, "| None => Err ValueError\n      | Some r", "| None => Ok {| ri_img := img; ri_gsd := gsd; ri_pix := p; ri_refl := [0.05; 0.95] |}\n      | Some r", "C21", "pixel values without reflectances accepted", "Sensor")
m("ref_image_init", Q, "ri_pix := [lo; hi]", "ri_pix := [hi; lo]", "C21", "calibration values exchanged", "Sensor")
m("estimate_capture_parameters", Q, "pydiv (alt * p) (ri_gsd ri)", "pydiv (ri_gsd ri * p) alt", "C22", "focal length inverted", "Sensor")
m("estimate_capture_parameters", Q, "let ifov := 2 * atan x in", "let ifov := atan x in", "C22", "half the field of view", "Sensor")
m("estimate_capture_parameters", Q, "Fin (4 * median2", "Fin (1.22 * median2", "C22", "diffraction coefficient", "Sensor")
m("estimate_capture_parameters", Q, "let scenario := init 1 alt 0 false", "let scenario := init 1 alt alt false", "C22", "ground range not zero", "Sensor")
m("default_capture_altitude", Q, "Definition default_capture_altitude : R := 2000000.", "Definition default_capture_altitude : R := 2000.", "C22", "a default that is in the database (the finding would be gone)", "Sensor")
# radiance/functional.py
m("at_focal_plane_irradiance", R, "(1 + 4 * (q * q))", "(4 * (q * q))", "C25", "small-aperture approximation", "Rad")
m("at_focal_plane_irradiance", R, "let* q := pydiv f D in\n  Ok (map (fun l", "let* q := pydiv D f in\n  Ok (map (fun l", "C25", "f-number inverted", "Rad")
m("blackbody_radiance1", R, "(Fin (lambda0 ^ 5))", "(Fin (lambda0 ^ 4))", "C23", "photon radiance power of the wavelength", "Rad")
m("blackbody_radiance1", R, "xsub (xexp (xdiv (Fin (hc * cc)) (Fin (lambda0 * kc * T)))) (Fin 1)", "xexp (xdiv (Fin (hc * cc)) (Fin (lambda0 * kc * T)))", "C23", "Wien approximation (minus one dropped)", "Rad")
m("blackbody_radiance1", R, "Fin (2 * hc * (cc * cc))", "Fin (hc * (cc * cc))", "C23", "factor two dropped", "Rad")
m("check_well_fill", R, "if xlt (Fin max_fill) total_photoelectrons\n  then xdiv (Fin max_fill) total_photoelectrons else Fin 1", "if xlt total_photoelectrons (Fin max_fill)\n  then xdiv (Fin max_fill) total_photoelectrons else Fin 1", "C33", "comparison reversed", "Rad")
m("check_well_fill", R, "then xdiv (Fin max_fill) total_photoelectrons else Fin 1", "then xdiv total_photoelectrons (Fin max_fill) else Fin 1", "C33", "scale factor inverted", "Rad")
m("check_well_fill_py", R, "then pydiv max_fill total_photoelectrons else Ok 1", "then pydiv max_fill total_photoelectrons else Ok 0", "C32", "no charge when it fits", "Rad")
m("cold_shield_self_emission", R, "(PI - PI / (4 * (q * q) + 1))", "(PI / (4 * (q * q) + 1))", "C26", "cone of the lens instead of the rest of the hemisphere", "Rad")
m("cold_stop_self_emission", R, "map (xmul (Fin emissivity)) (blackbody_radiance wl T)", "map (xmul (Fin (1 - emissivity))) (blackbody_radiance wl T)", "C26", "reflectivity instead of emissivity", "Rad")
m("optics_self_emission", R, "Fin (filt_trans * emissivity)", "Fin emissivity", "C26", "filter transmission forgotten", "Rad")
m("focal_plane_integrated_irradiance", R, "xmul (xmul (Fin e_opt) b) (Fin d_lambda)", "xmul (Fin e_opt) b", "C102", "band width forgotten in the emission", "Rad")
m("focal_plane_integrated_irradiance", R, "xadd x (Fin L_s)", "x", "C102", "stray radiance forgotten", "Rad")
m("photon_detection_rate", R, "l / (hc * cc) * q", "hc * cc / l * q", "C27", "multiplied by the photon energy instead of divided", "Rad")
m("photon_detection_rate", R, "Fin (x * w_x * w_y)", "Fin (x * w_x * w_x)", "C27", "square detector assumed", "Rad")
m("resample_by_wavelength", R, "interp_tab x tab 0 0", "interp_tab x tab 1 1", "C28", "one outside the table", "Rad")
m("resample_by_wavelength", R, "interp_tab x tab 0 0", "interp_tab x tab (nth 0 values 0) (last values 0)", "C28", "np.interp default: end values outside the table", "Rad")
m("signal_rate", R, "let* tgt_FPA_irradiance := bmap2 xadd e1 other_irradiance in", "let* tgt_FPA_irradiance := Ok e1 in", "C31", "self emission dropped", "Rad")
m("signal_rate", R, "let* e1 := bmap2 (fun t e => xmul (Fin t) e) opt_trans e0 in", "let* e1 := Ok e0 in", "C31", "optics transmission dropped", "Rad")
m("signal_rate", R, "xadd integral (Fin dark_current)", "integral", "C31", "dark current dropped", "Rad")
m("total_radiance1", R, "xmul (Fin (1 - reflectance)) (blackbody_radiance1 (a_wl a) T)", "xmul (Fin reflectance) (blackbody_radiance1 (a_wl a) T)", "C29", "reflectance used as emissivity", "Rad")
m("total_radiance1", R, "(blackbody_radiance1 (a_wl a) T)) (Fin (a_trans a)))", "(blackbody_radiance1 (a_wl a) T)) (Fin 1))", "C29", "emission not attenuated by the atmosphere", "Rad")
m("total_radiance1", R, "(reflectance / db_reflectance)", "reflectance", "C29", "not divided by the database reflectance", "Rad")
m("total_radiance1", R, "(Fin (a_scat a))", "(Fin (a_surf a))", "C29", "surface emission column used twice", "Rad")
m("giqe_radiance", R, "(total_radiance atm 0 tgt_temp, total_radiance atm 0 bkg_temp)", "(total_radiance atm 0 bkg_temp, total_radiance atm 0 tgt_temp)", "C30", "target and background exchanged in emissive mode", "Rad")
m("giqe_radiance", R, "let tgt_ref := 0.15 in let bkg_ref := 0.07 in", "let tgt_ref := 0.15 in let bkg_ref := 0.15 in", "C30", "no contrast", "Rad")
m("sensor_opt_trans", R, "(1 - s_eta s * s_eta s)", "(1 - s_eta s)", "C38", "obscured area linear in the obscuration", "Rad")
m("sensor_qe", R, "resample_by_wavelength (s_qwl s) (s_qe s) wl", "resample_by_wavelength (s_owl s) (s_qe s) wl", "C33", "efficiency read at the optics' wavelengths", "Rad")
m("sensor_other_irradiance", R, "let* ab := bmap2 xadd a b in", "let* ab := Ok a in", "C33", "optics emission dropped", "Rad")
m("sensor_other_irradiance", R, "cold_shield_self_emission wl (s_T_shield s)", "cold_shield_self_emission wl (s_T_opt s)", "C35", "shield at the temperature of the optics", "Rad")
m("photon_detector_SNR", R, "let scale_factor := check_well_fill (xmax tgt_n0 bkg_n0) (s_max_fill s * s_max_n s) in", "let scale_factor := check_well_fill tgt_n0 (s_max_fill s * s_max_n s) in", "C33", "only the target checked against the well", "Rad")
m("photon_detector_SNR", R, "let scale_factor := check_well_fill (xmax tgt_n0 bkg_n0) (s_max_fill s * s_max_n s) in", "let scale_factor := check_well_fill (xmax tgt_n0 bkg_n0) (s_max_n s) in", "C33", "allowed fill fraction ignored", "Rad")
m("photon_detector_SNR", R, "let bkg_n := xmul scale_factor bkg_n0 in", "let bkg_n := bkg_n0 in", "C34", "background not rescaled", "Rad")
m("photon_detector_SNR", R, "let int_time := xmul scale_factor (Fin (s_int_time s)) in", "let int_time := Fin (s_int_time s) in", "C35", "integration time not rescaled", "Rad")
m("photon_detector_SNR", R, "let tgt_n0 := xmul (xmul tgt_rate (Fin (s_int_time s))) (Fin (s_ntdi s)) in", "let tgt_n0 := xmul tgt_rate (Fin (s_int_time s)) in", "C33", "TDI stages forgotten for the target", "Rad")
m("photon_detector_SNR", R, "let signal_noise := xsqrt (xmax tgt_n bkg_n) in", "let signal_noise := xsqrt bkg_n in", "C34", "shot noise of the background only", "Rad")
m("photon_detector_SNR", R, "(Fin (s_read s * s_read s))", "(Fin (s_read s))", "C35", "read noise not squared", "Rad")
m("photon_detector_SNR", R, "xadd (xsq signal_noise) (xsq quant)", "xsq signal_noise", "C35", "quantization noise dropped", "Rad")
m("photon_detector_SNR", R, "(Fin (Rsum (map (fun x => x * x) (s_other_noise s))))", "(Fin (Rsum (s_other_noise s)))", "C35", "other noise not squared", "Rad")
m("photon_detector_SNR", R, "quantization_noise (s_max_n s) (s_bits s)", "quantization_noise (s_max_fill s * s_max_n s) (s_bits s)", "C35", "range of the converter", "Rad")
m("photon_detector_SNR", R, "m_snr := xdiv contrast total", "m_snr := xdiv contrast signal_noise", "C35", "signal to shot noise only", "Rad")
m("photon_detector_SNR", R, "let dark_noise := xsqrt (xmul (Fin (s_ntdi s * s_dark s)) int_time) in", "let dark_noise := xsqrt (xmul (Fin (s_dark s)) int_time) in", "C35", "dark noise for one stage", "Rad")
m("band", R, "Rleb (a_wl a) hi", "Rltb (a_wl a) hi", "C37", "last wavelength of the band excluded", "Rad")
m("band", R, "Rleb lo (a_wl a)", "Rltb lo (a_wl a)", "C37", "first wavelength of the band excluded", "Rad")
m("pe_at", R, "Ok (xmul (xmul rate (Fin int_time)) (Fin (s_ntdi s)), weights).", "Ok (xmul rate (Fin int_time), weights).", "C38", "TDI stages forgotten", "Rad")
m("pe_at", R, "total_radiance atm reflectance 300", "total_radiance atm reflectance 290", "C38", "other scene temperature", "Rad")
m("limit_to_well", R, "let sat := xdiv top (Fin max_n) in\n  let pe := if xlt (Fin 1) sat then map (fun p => xdiv p sat) pe else pe in", "let sat := xdiv top (Fin max_n) in\n  let pe := if xlt (Fin 1) sat then map (fun p => xmul p sat) pe else pe in", "C37", "multiplied instead of divided by the saturation", "Rad")
m("limit_to_well", R, "let pe := if xlt (Fin 1) sat then map (fun p => xdiv p sat) pe else pe in", "", "C37", "clipping instead of a shorter exposure", "Rad")
m("reflectance_to_photoelectrons", R, "linspace 0 1 100", "linspace 0 1 99", "C38", "number of reflectances", "Rad")
m("reflectance_to_photoelectrons", R, "mapM (pe_at s atm int_time) ref", "mapM (pe_at s atm (s_int_time s)) ref", "C37", "the camera's own exposure time used", "Rad")
m("reflectance_to_photoelectrons", R, "let* top := py_maxx weights in\n  Ok (ref, pe, (map a_wl atm, map (fun w => xdiv w top) weights))", "Ok (ref, pe, (map a_wl atm, weights))", "C39", "weights not normalised", "Rad")
m("reflectance_to_photoelectrons", R, "snd (last out (Fin 0, []))", "snd (nth 0 out (Fin 0, []))", "C39", "weights of the black target", "Rad")
