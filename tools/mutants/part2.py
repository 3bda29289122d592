# realistic wrong programs for the transfer functions and the imaging chain
M = []
def m(definition, file, old, new, prop, claim, *targets):
    M.append(dict(definition=definition, file="Model_" + file, old=old, new=new, claim=prop + ": " + claim, targets=["Prop_" + t for t in targets]))
O, I = "Otf", "Img"
# circular aperture
m("radial", O, "xsqrt (Fin (u * u + v * v))", "Fin (Rabs u + Rabs v)", "C41", "sum of absolute values instead of the radial frequency", "Aper", "Otf")
m("circular_aperture_OTF", O, "let* r0 := kdiv k (Fin D) (Fin lambda0) in\n  let x := xdiv rho r0 in", "let* r0 := kdiv k (Fin D) (Fin lambda0) in\n  let x := xdiv (xmul (Fin 2) rho) r0 in", "C41", "cutoff at half the frequency", "Aper")
m("circular_aperture_OTF", O, "(xsub (xacos x) (xmul x (xsqrt (xsub (Fin 1) (xsq x))))) in\n  let a", "(xadd (xacos x) (xmul x (xsqrt (xsub (Fin 1) (xsq x))))) in\n  let a", "C42", "sign in the overlap area", "Aper")
m("circular_aperture_OTF", O, "let a := xmul (Fin (2 / PI))", "let a := xmul (Fin (1 / PI))", "C42", "normalisation of the overlap", "Aper")
m("circular_aperture_OTF", O, "let a := xnan_to_num a in", "let a := a in", "C41", "nan beyond the cutoff not replaced by zero", "Aper")
m("circular_aperture_OTF", O, "let y := xdiv (xdiv rho (Fin eta)) r0 in", "let y := xdiv (xmul rho (Fin eta)) r0 in", "C43", "inner disc scaled the wrong way", "Aper")
m("circular_aperture_OTF", O, "let c_1 := xmul (Fin (-2 * (eta * eta)))", "let c_1 := xmul (Fin (-1 * (eta * eta)))", "C43", "cross term counted once instead of twice", "Aper")
m("circular_aperture_OTF", O, "(b2x (xlt rho (xdiv (xmul (Fin (1 - eta)) r0) (Fin 2))))", "(b2x (xle rho (xdiv (xmul (Fin (1 - eta)) r0) (Fin 2))))", "C43", "boundary of the first cross term (both terms apply at the boundary)", "Aper")
m("circular_aperture_OTF", O, "(b2x (xle rho (xdiv (xmul (Fin (1 + eta)) r0) (Fin 2))))", "(b2x (xle rho (xdiv (xmul (Fin (1 - eta)) r0) (Fin 2))))", "C43", "second cross term on the wrong interval", "Aper")
m("circular_aperture_OTF", O, "c_2) (Fin (1 - eta * eta)))\n  else Ok a", "c_2) (Fin (1 - eta)))\n  else Ok a", "C43", "normalisation by the diameter ratio instead of the area", "Aper")
m("circular_aperture_OTF", O, "if Rltb 0 eta\n  then Ok (xdiv (xadd (xadd (xadd a b) c_1) c_2) (Fin (1 - eta * eta)))\n  else Ok a", "Ok (xdiv (xadd (xadd (xadd a b) c_1) c_2) (Fin (1 - eta * eta)))", "C41", "case distinction for the clear aperture dropped", "Aper")
m("circular_aperture_OTF", O, "(xadd (xadd (xadd a b) c_1) c_2)", "(xadd (xadd a c_1) c_2)", "C43", "overlap of the inner discs forgotten", "Aper")
m("circular_aperture_OTF", O, "(Fin (2 * (1 - eta * eta) / PI))", "(Fin (2 * (1 + eta * eta) / PI))", "C43", "sign in the arctangent factor", "Aper")
# defocused aperture
m("bessel", O, "cos (INR n * t - x * sin t)", "cos (INR n * t + x * sin t)", "C45", "Bessel functions of the reflected argument", "Aper", "Defocus")
m("circular_aperture_OTF_with_defocus", O, "if xeq rho (Fin 0) then Fin 1 else d", "d", "C45", "zero frequency not special-cased", "Aper", "Defocus")
m("circular_aperture_OTF_with_defocus", O, "if xeq rho (Fin 0) then Fin 1 else d", "if xeq rho (Fin 0) then Fin 0 else d", "C45", "value at zero frequency", "Aper", "Defocus")
m("circular_aperture_OTF_with_defocus", O, "xmul (Fin (1 / PI)) (xsub (xmul (Fin 2) beta) (xsin (xmul (Fin 2) beta)))", "xmul (Fin (1 / PI)) (xsub (xmul (Fin 2) beta) (xsin beta))", "C44", "in-focus branch", "Aper", "Defocus")
m("circular_aperture_OTF_with_defocus", O, "let* q := pydiv (1 / 2) (1 + 4 * (fD * fD)) in", "let* q := pydiv 1 (1 + 4 * (fD * fD)) in", "C103", "wavefront error twice as large", "Aper", "Defocus")
m("circular_aperture_OTF_with_defocus", O, "Ok (xnan_to_num defocus_otf)", "Ok defocus_otf", "C45", "nan beyond the cutoff", "Aper", "Defocus")
m("circular_aperture_OTF_with_defocus", O, "let s := xdiv (xmul (Fin 2) rho) r0 in", "let s := xdiv rho r0 in", "C44", "normalised frequency without the factor two", "Aper", "Defocus")
# cte
m("cte_OTF_xy", O, "(1 - cte_eff)", "cte_eff", "C46", "efficiency instead of inefficiency", "Otf")
m("cte_OTF_xy", O, "(-1 * phases_n * n * (1 - cte_eff))", "(-1 * n * (1 - cte_eff))", "C46", "number of phases forgotten", "Otf")
m("cte_OTF_xy", O, "xcos (xdiv (xmul (Fin (2 * PI)) pu) (Fin f))", "xcos (xdiv (xmul (Fin PI) pu) (Fin f))", "C46", "factor two in the phase", "Otf")
m("cte_OTF", O, "(cte_OTF_xy cte_n_y (Fin (p_y * v))", "(cte_OTF_xy cte_n_x (Fin (p_y * v))", "C46", "number of transfers of the other axis", "Otf")
m("cte_OTF", O, "(Fin (p_y * v))", "(Fin (p_y * u))", "C46", "same frequency on both axes", "Otf")
# defocus, detector, aggregation
m("defocus_OTF", O, "- (PI * PI) / 4", "- (PI * PI) / 2", "C54", "factor in the exponent", "Otf")
m("defocus_OTF", O, "w_x * w_x * (u * u) + w_y * w_y * (v * v))))", "w_x * w_x * (v * v) + w_y * w_y * (u * u))))", "C54", "axes exchanged", "Otf")
m("detector_OTF", O, "xmul (xsinc (xdiv (Fin (w_x * u)) (Fin f))) (xsinc (xdiv (Fin (w_y * v)) (Fin f))).\n\n(* 374", "xmul (xsinc (xdiv (Fin (w_x * u)) (Fin f))) (xsinc (xdiv (Fin (w_x * v)) (Fin f))).\n\n(* 374", "C48", "pixel width used on both axes", "Otf")
m("detector_OTF", O, "xmul (xsinc (xdiv (Fin (w_x * u)) (Fin f))) (xsinc (xdiv (Fin (w_y * v)) (Fin f))).\n\n(* 374", "xmul (xsinc (Fin (w_x * u))) (xsinc (Fin (w_y * v))).\n\n(* 374", "C48", "focal length forgotten", "Otf")
m("detector_OTF", O, "xmul (xsinc (xdiv (Fin (w_x * u)) (Fin f))) (xsinc (xdiv (Fin (w_y * v)) (Fin f))).\n\n(* 374", "match xmul (xsinc (xdiv (Fin (w_x * u)) (Fin f))) (xsinc (xdiv (Fin (w_y * v)) (Fin f))) with Fin r => Fin (Rabs r) | x => x end.\n\n(* 374", "C48", "modulus instead of the signed transfer function (contrast reversal lost)", "Otf")
m("agg_phase", O, "(INR n - 1) * p * x", "INR n * p * x", "C49", "array centred half a pixel off", "Otf")
m("agg_sum", O, "(seq 0 n)", "(seq 1 n)", "C49", "index starts at one", "Otf")
m("agg_sum", O, "(seq 0 n)", "(seq 0 (n - 1))", "C49", "last pixel left out", "Otf")
m("detector_OTF_with_aggregation", O, "(Fin (INR n * INR n))", "(Fin (INR n))", "C49", "normalisation by n instead of n squared", "Otf")
m("detector_OTF_with_aggregation", O, "(agg_sum n p_y v f)", "(agg_sum n p_x v f)", "C49", "pitch of the other axis", "Otf")
# diffusion, drift, gaussian, jitter
m("diffusion_OTF_params", O, "xsub (Fin 1) (xdiv", "xadd (Fin 1) (xdiv", "C50", "sign", "Otf")
m("diffusion_OTF_params", O, "(- alpha * ald)", "(alpha * ald)", "C50", "sign of the absorption exponent", "Otf")
m("diffusion_OTF", O, "Ok (xdiv (diffusion_OTF_params al_rho alpha ald)\n           (diffusion_OTF_params (Fin al0) alpha ald))", "Ok (diffusion_OTF_params al_rho alpha ald)", "C50", "not normalised at zero frequency", "Otf")
m("diffusion_OTF", O, "(xsq (xdiv (xmul (Fin (2 * PI)) rho) (Fin f)))", "(xdiv (xmul (Fin (2 * PI)) rho) (Fin f))", "C50", "frequency not squared", "Otf")
m("drift_OTF", O, "xmul (xsinc (Fin (a_x * u))) (xsinc (Fin (a_y * v)))", "xmul (xsinc (Fin (a_x * u))) (xsinc (Fin (a_x * v)))", "C51", "drift of the other axis", "Otf")
m("drift_OTF", O, "xmul (xsinc (Fin (a_x * u)))", "xmul (xsinc (Fin (a_x * u * PI)))", "C51", "pi inside sinc twice", "Otf")
m("gaussian_OTF", O, "xmul (Fin (- PI))", "xmul (Fin (- PI / 2))", "C54", "factor in the exponent", "Otf")
m("gaussian_OTF", O, "let* fcY := pydiv 1 blur_size_y in", "let* fcY := pydiv 1 blur_size_x in", "C54", "blur of the other axis", "Otf")
m("jitter_OTF", O, "-2 * (PI * PI)", "- (PI * PI)", "C47", "factor in the exponent", "Otf")
m("jitter_OTF", O, "s_x * s_x * (u * u) + s_y * s_y * (v * v)", "s_x * (u * u) + s_y * (v * v)", "C47", "amplitude not squared", "Otf")
m("jitter_OTF", O, "s_x * s_x * (u * u) + s_y * s_y * (v * v)", "s_x * s_x * (u * u) - s_y * s_y * (v * v)", "C47", "sign on one axis", "Otf")
# tdi, turbulence, wavefront
m("tdi_steps", O, "Z.to_nat (Zceil (n_tdi * phases_n))", "Z.to_nat (Zfloor (n_tdi * phases_n))", "C57", "number of steps rounded down", "Otf")
m("tdi_phase", O, "(Fin (beta - 1))", "(Fin beta)", "C57", "velocity ratio instead of mismatch", "Otf")
m("tdi_OTF", O, "xdiv (Fin (w * u_or_v)) (Fin (f * beta)) in\n  let iind", "xdiv (Fin (w * u_or_v)) (Fin f) in\n  let iind", "C57", "velocity ratio missing in the step length", "Otf")
m("tdi_OTF", O, "let n := Fin (n_tdi * phases_n) in", "let n := Fin n_tdi in", "C57", "normalised by the stages only", "Otf")
m("tdi_OTF", O, "xdiv (xmul (xsinc xx) im) n)", "xdiv im n)", "C57", "sinc missing on the imaginary part", "Otf")
m("turbulence_OTF", O, "xmul (Fin (-3.44))", "xmul (Fin (-6.88))", "C55", "structure function without the half", "Otf")
m("turbulence_OTF", O, "(xpow (xdiv lr r0) (5 / 3))", "(xpow (xdiv lr r0) (3 / 5))", "C55", "exponent upside down", "Otf")
m("turbulence_OTF", O, "(xpow (xdiv lr (Fin D)) (1 / 3))", "(xpow (xdiv lr r0) (1 / 3))", "C55", "coherence diameter used for the aperture", "Otf")
m("turbulence_OTF", O, "(xsub (Fin 1) (xmul (Fin alpha)", "(xadd (Fin 1) (xmul (Fin alpha)", "C55", "sign of the tilt term", "Otf")
m("wind_speed_turbulence_OTF", O, "(Fin (- vel * t_d))", "(Fin (vel * t_d))", "C56", "weight grows with time", "Otf")
m("wind_speed_turbulence_OTF", O, "Ok (xadd (xmul weight (turbulence_OTF u v lambda0 D r0 0.5))\n           (xmul (xsub (Fin 1) weight) (turbulence_OTF u v lambda0 D r0 0)))", "Ok (xadd (xmul weight (turbulence_OTF u v lambda0 D r0 0))\n           (xmul (xsub (Fin 1) weight) (turbulence_OTF u v lambda0 D r0 0.5)))", "C56", "short and long exposure exchanged", "Otf")
m("wind_speed_turbulence_OTF", O, "(turbulence_OTF u v lambda0 D r0 0.5)", "(turbulence_OTF u v lambda0 D r0 1)", "C56", "near-field tilt factor one", "Otf")
m("wavefront_OTF", O, "(Fin (- (lambda0 * lambda0)))", "(Fin (- lambda0))", "C58", "wavelength not squared", "Otf")
m("wavefront_OTF", O, "(xmul (xopp pv) (xsub (Fin 1) auto_c))", "(xmul (xopp pv) auto_c)", "C58", "autocorrelation instead of its complement", "Otf")
m("wavefront_OTF", O, "(xsq (xdiv (Fin v) (Fin L_y)))", "(xsq (xdiv (Fin v) (Fin L_x)))", "C58", "correlation length of the other axis", "Otf")
m("wavefront_OTF_2", O, "(Fin ((w_rms / 0.18) * (w_rms / 0.18)))", "(Fin (w_rms / 0.18))", "C58", "wavefront error not squared", "Otf")
m("wavefront_OTF_2", O, "(xsq (xsub v (Fin 0.5)))", "(xsq v)", "C58", "parabola centred at zero", "Otf")
# weighting, coherence, profile
m("select", O, "then Ok (map snd (filter (fun p => Reqb (fst p) x) (combine wl w)))\n  else Err IndexError", "then Ok (map snd (filter (fun p => Rleb (fst p) x) (combine wl w)))\n  else Err IndexError", "C59", "all weights up to the wavelength", "System")
m("select", O, "if Nat.eqb (length wl) (length w)\n  then Ok (map snd (filter (fun p => Reqb", "if Nat.leb (length wl) (length w)\n  then Ok (map snd (filter (fun p => Reqb", "C60", "longer weight array accepted", "System")
m("weighted_loop", O, "let* t := bmap2 xmul ws gi in", "let* t := Ok gi in", "C59", "weights not applied", "System")
m("weighted_loop", O, "let* acc := bmap2 xadd acc t in\n      weighted_loop", "let* acc := bmap2 (fun _ y => y) acc t in\n      weighted_loop", "C59", "sum overwritten instead of accumulated", "System")
m("weighted_by_wavelength", O, "let s := xsum w in", "let s := Fin 1 in", "C59", "weights not normalised", "System")
m("weighted_by_wavelength", O, "weighted_loop wl w g rest (map (xmul w0) g0)", "weighted_loop wl w g (l0 :: rest) (map (xmul w0) g0)", "C59", "first wavelength counted twice", "System")
m("weighted_by_wavelength", O, "weighted_loop wl w g rest (map (xmul w0) g0)", "weighted_loop wl w g rest (map (fun _ => Fin 0) g0)", "C59", "first wavelength dropped", "System")
m("coherence_diameter", O, "xpow (xdiv z zm) (5 / 3)", "xpow (xsub (Fin 1) (xdiv z zm)) (5 / 3)", "C61", "path weighted from the sensor end", "System")
m("coherence_diameter", O, "(Fin (q * q))", "(Fin q)", "C61", "wave number not squared", "System")
m("coherence_diameter", O, "(- (3 / 5))", "(3 / 5)", "C61", "sign of the exponent", "System")
m("coherence_diameter", O, "(Fin 0.423)", "(Fin 0.243)", "C61", "digits of the constant transposed", "System")
m("hufnagel_valley_turbulence_profile", O, "(xdiv (xopp h) (Fin 1500))", "(xdiv (xopp h) (Fin 1000))", "C62", "scale height of the second term", "Otf")
m("hufnagel_valley_turbulence_profile", O, "((v / 27) * (v / 27))", "(v / 27)", "C62", "wind speed not squared", "Otf")
m("hufnagel_valley_turbulence_profile", O, "(xpown h 10)", "(xpown h 9)", "C62", "power of the height", "Otf")
m("r0_function", O, "(Fin (Rpower (1 / 10 ^ 6) (- (6 / 5))))", "(Fin (Rpower (1 / 10 ^ 6) (6 / 5)))", "C61", "scaling from one micron inverted", "System")
m("r0_function", O, "(xpow (Fin wav) (6 / 5))", "(xpow (Fin wav) (5 / 6))", "C61", "exponent of the wavelength", "System")
m("polychromatic_turbulence_OTF", O, "altitude_along_slant_path k 0 altitude slant_range", "altitude_along_slant_path k altitude 0 slant_range", "C64", "path evaluated from the other end", "System")
m("polychromatic_turbulence_OTF", O, "int_time aircraft_speed) pts", "int_time ha_wind_speed) pts", "C64", "high altitude wind used for the aircraft speed", "System")
m("polychromatic_turbulence_OTF", O, "h ha_wind_speed cn2_at_1m) h_path", "h aircraft_speed cn2_at_1m) h_path", "C64", "aircraft speed used for the wind profile", "System")
m("polychromatic_turbulence_OTF", O, "(fst p) (snd p) l D (r0_function r0_at_1um l)", "(fst p) (snd p) l D r0_at_1um", "C64", "coherence diameter not scaled to the wavelength", "System")
# radii
m("object_domain_defocus_radii", O, "(a - b)", "(b - a)", "C63", "sign", "Otf")
m("object_domain_defocus_radii", O, "0.62 * D * (a", "0.62 * (a", "C63", "aperture forgotten", "Otf")
m("image_domain_defocus_radii", O, "(f * f)", "f", "C63", "focal length not squared", "Otf")
m("dark_current_from_density", O, "jd * w_x * w_y / qc", "jd * w_x * w_x / qc", "C63", "square detector assumed", "Otf")
m("qc", O, "1.60217662 / 10 ^ 19", "1.60217662 / 10 ^ 18", "C63", "charge of the electron", "Otf")
# filter
m("xfer", O, "let j' := Nat.modulo (i + n_filt / 2) n_filt in", "let j' := i in", "C53", "no fftshift along the rows", "System")
m("xfer", O, "sqrt (dft_re kernel j' k' * dft_re kernel j' k' + dft_im kernel j' k' * dft_im kernel j' k')", "dft_re kernel j' k'", "C52", "real part instead of the modulus", "System")
m("dft_im", O, "- (kget kernel a b * sin", "(kget kernel a b * cos", "C52", "cosine in the imaginary part", "System")
m("wrap_val", O, "pymod (value + nyquist) (2 * nyquist) - nyquist", "pymod value (2 * nyquist)", "C52", "wrapped to 0..2 Nyquist", "System")
m("wrap_val", O, "pymod (value + nyquist) (2 * nyquist) - nyquist", "value", "C52", "no periodic continuation", "System")
m("filter_OTF", O, "let* nyquist := pydiv 0.5 ifov in", "let* nyquist := pydiv 1 ifov in", "C52", "sampling frequency used as Nyquist frequency", "System")
m("filter_OTF", O, "let y := (nyquist - wrap_val v nyquist)", "let y := (nyquist + wrap_val v nyquist)", "C52", "rows upside down", "System")
# system
m("common_OTFs", O, "if Rltb 0 (plain c Cn2At1m)", "if Rleb 0 (plain c Cn2At1m)", "C65", "no turbulence not special-cased", "System")
m("common_OTFs", O, "(int_time * s_ntdi s) (plain c AircraftSpeed)", "int_time (plain c AircraftSpeed)", "C64", "TDI stages not in the integration time of the turbulence", "System")
m("common_OTFs", O, "drift_OTF u v (s_dax s * int_time * s_ntdi s) (s_day s * int_time * s_ntdi s)", "drift_OTF u v (s_dax s * int_time) (s_day s * int_time)", "C64", "TDI stages not in the drift", "System")
m("common_OTFs", O, "detector_OTF u v (s_wx s) (s_wy s) (s_f s)", "detector_OTF u v (s_px s) (s_py s) (s_f s)", "C64", "pixel pitch used for the detector width", "System")
m("common_OTFs", O, "jitter_OTF u v (s_sx s) (s_sy s)", "jitter_OTF u v (s_sy s) (s_sx s)", "C64", "jitter axes exchanged", "System")
m("common_OTFs", O, "(xsq (xdiv (Fin (s_pv_wl s)) (Fin l)))", "(xsq (xdiv (Fin l) (Fin (s_pv_wl s))))", "C64", "wavefront variance scaled the wrong way", "System")
m("common_OTFs", O, "if Nat.ltb 1 (length (s_kernel s))", "if Nat.ltb 0 (length (s_kernel s))", "C64", "a one-row kernel is treated as a filter", "System")
m("common_OTFs", O, "let* m := bmap2 xmul m wav in\n", "", "C64", "wavefront factor left out", "System")
m("common_OTFs", O, "let* m := bmap2 xmul m filt in\n", "", "C64", "sharpening filter left out", "System")
m("common_OTFs", O, "let* m := bmap2 xmul m drft in\n", "let* m := bmap2 xmul m jit in\n", "C64", "jitter applied twice, drift not at all", "System")
m("common_OTFs", O, "circular_aperture_OTF Np u v l (s_D s) (s_eta s)", "circular_aperture_OTF Np u v l (s_D s) 0", "C64", "obscuration ignored", "System")
m("common_OTFs", O, "let* ifov := pydiv (s_px s) (s_f s) in", "let* ifov := pydiv (s_wx s) (s_f s) in", "C64", "detector width used for the filter's sampling", "System")
m("common_OTFs", O, "map (fun _ => Fin 1) pts, map (fun _ => Fin 1000000) pts", "map (fun _ => Fin 0) pts, map (fun _ => Fin 1000000) pts", "C65", "no turbulence gives zero instead of one", "System")
# slices
m("bilin", I, "let z' a b := z (n - 1 - a)%nat b in", "let z' a b := z a b in", "C66", "rows upside down", "Img")
m("bilin", I, "let s := X - INR j in", "let s := 0 in", "C66", "nearest neighbour instead of interpolation along u", "Img")
m("bilin", I, "let X := (x + 1) / 2 * INR (n - 1) in", "let X := (x + 1) / 2 * INR n in", "C66", "grid spacing off by one", "Img")
m("arange01", I, "Z.to_nat (Zceil (1 / step))", "Z.to_nat (Zceil (1 / step)) + 1", "C66", "end point included", "Img")
m("slice_otf", I, "(2 / INR (rows otf - 1))", "(2 / INR (rows otf))", "C66", "step off by one", "Img")
m("slice_otf", I, "let ys := sortR (map (fun t => t * sin ang) r) in", "let ys := sortR (map (fun t => t * cos ang) r) in", "C67", "cosine on both axes", "Img")
m("slice_otf", I, "let xs := sortR (map (fun t => t * cos ang) r) in", "let xs := map (fun t => t * cos ang) r in", "C67", "no sorting along u (the finding would be gone)", "Img")
m("slice_otf", I, "if Nat.ltb (rows otf) 2 then Err IndexError\n  else", "", "C66", "one-row arrays accepted", "Img")
# psf
m("fsh", I, "((i + (n - n / 2)) mod n)%nat", "((i + n / 2) mod n)%nat", "C70", "ifftshift (as it should be for odd sizes)", "Img")
m("ifft_re", I, "(X p q * cos ph - Y p q * sin ph)", "(X p q * cos ph + Y p q * sin ph)", "C70", "sign of the transform (forward instead of inverse)", "Img")
m("ifft_re", I, "(INR n * INR m))\n     (seq 0 m)", "INR n)\n     (seq 0 m)", "C70", "normalisation of the inverse transform", "Img")
m("psf_raw", I, "px := fun i j => ifft_re n m (sh (re otf)) (sh (im otf)) (fsh n i) (fsh m j)", "px := fun i j => ifft_re n m (sh (re otf)) (sh (im otf)) i j", "C70", "no shift after the transform", "Img")
m("rs_pos", I, "(INR x + 0.5) * (INR n / INR m) - 0.5", "INR x * (INR n / INR m)", "C73", "pixel corners aligned instead of centres", "Img")
m("rs_pos", I, "then ((n - 1)%nat, 0)", "then (0%nat, 0)", "C73", "right border wraps around", "Img")

m("cv_resize", I, "rows := hn; cols := wn;\n          px", "rows := wn; cols := hn;\n          px", "C72", "width and height exchanged", "Img")
m("cv_resize", I, "(1 - t) * ((1 - s) * px a y x + s * px a y (x + 1)%nat)", "(1 - t) * (s * px a y x + (1 - s) * px a y (x + 1)%nat)", "C73", "weights exchanged", "Img")
m("cv_resize", I, "Z.leb w 0 || Z.leb h 0", "Z.leb w 0 && Z.leb h 0", "C72", "one empty side accepted", "Img")
m("mid_slice", I, "py_slice d ((d - k) / 2)", "py_slice d (d / 2)", "C71", "crop starts at the centre", "Img")
m("mid_slice", I, "(- ((- (d + k)) / 2))", "((d + k) / 2)", "C71", "end rounded down (odd difference)", "Img")
m("crop_sizes", I, "10 + 5 * i)%nat", "5 + 5 * i)%nat", "C69", "first crop is five pixels", "Img")
m("crop_sizes", I, "((m - 10 + 4) / 5)", "((m - 10) / 5)", "C69", "last crop size missing", "Img")
m("crop_loop", I, "if Rltb 0.95 (isum c) then Some c else crop_loop psf sizes (Some c)", "if Rltb 0.95 (isum c) then crop_loop psf sizes (Some c) else Some c", "C69", "condition inverted", "Img")
m("crop_loop", I, "Rltb 0.95 (isum c)", "Rltb 0.5 (isum c)", "C69", "half of the energy is enough", "Img")
m("crop_loop", I, "if Rltb 0.95 (isum c) then Some c else crop_loop psf sizes (Some c)", "Some c", "C69", "always the first crop", "Img")
m("otf_to_psf", I, "Ok (iscale (isum c) c)", "Ok c", "C68", "final normalisation dropped", "Img")
m("otf_to_psf", I, "crop_loop (iscale s psf) sizes None", "crop_loop psf sizes None", "C69", "not normalised before cropping", "Img")
m("otf_to_psf", I, "(Fin (INR (crows otf) * df))", "(Fin (df))", "C69", "frequency spacing instead of sampling frequency", "Img")
m("otf_to_psf", I, "(Nat.min (crows otf) (ccols otf))", "(Nat.max (crows otf) (ccols otf))", "C69", "larger side limits the crop", "Img")
m("otf_to_psf", I, "(Z.max 1 x) (Z.max 1 y)", "x y", "C69", "size may become zero", "Img")
m("otf_to_psf", I, "let* y := xint (xdiv (xmul (Fin (INR (rows psf))) dx_in) dx_out) in", "let* y := xint (xdiv (xmul (Fin (INR (rows psf))) dx_out) dx_in) in", "C69", "spacings exchanged", "Img")
# blur and resample
m("reflect101", I, "(2 * (Z.of_nat n - 1))%Z", "(2 * Z.of_nat n - 1)%Z", "C73", "reflection period off by one", "Img")
m("reflect101", I, "(per - r)%Z", "(r - per)%Z", "C73", "sign of the reflected index", "Img")
m("filter2D", I, "(Z.of_nat y + Z.of_nat p - Z.of_nat (rows k / 2))", "(Z.of_nat y - Z.of_nat p + Z.of_nat (rows k / 2))", "C104", "rows convolved, columns correlated", "Img")
m("filter2D", I, "(Z.of_nat y + Z.of_nat p - Z.of_nat (rows k / 2))", "(Z.of_nat y + Z.of_nat p)", "C73", "anchor at the corner", "Img")
m("filter2D", I, "px k p q *", "px k q p *", "C73", "kernel transposed", "Img")
m("filter2D", I, "(seq 0 (cols k)))) (seq 0 (rows k)))", "(seq 0 (cols k)))) (seq 0 (rows k - 1)))", "C73", "last kernel row left out", "Img")
m("resample_2D", I, "let* qx := qdiv k (xmul (Fin (INR (cols a))) dx_in) dx_out in", "let* qx := qdiv k (xmul (Fin (INR (rows a))) dx_in) dx_out in", "C72", "rows used for the width", "Img")
m("resample_2D", I, "cv_resize a new_x new_y", "cv_resize a new_y new_x", "C72", "(height, width) passed instead of (width, height)", "Img")
m("resample_2D", I, "let* new_x := xint_round qx in", "let* new_x := xint qx in", "C72", "truncation instead of rounding", "Img")
m("resample_2D", I, "let* qy := qdiv k (xmul (Fin (INR (rows a))) dx_in) dx_out in", "let* qy := qdiv k (xmul (Fin (INR (rows a))) dx_out) dx_in in", "C72", "ratio inverted for the height", "Img")
m("apply_otf_to_image", I, "let* h := qdiv kr (Fin (ref_gsd / 2)) (Fin ref_range) in", "let* h := qdiv kr (Fin ref_gsd) (Fin ref_range) in", "C74", "half angle computed from the whole ground sample", "Img")
m("apply_otf_to_image", I, "(xmul (Fin 2) (xatan h))", "(xatan h)", "C74", "half of the angle", "Img")
m("apply_otf_to_image", I, "let* sim := resample_2D (join kr ki) blur dx (Fin ifov) in", "let* sim := resample_2D (join kr ki) ref_img dx (Fin ifov) in", "C74", "unblurred image resampled", "Img")
m("apply_otf_to_image", I, "let* blur := filter2D ref_img psf in", "let* blur := filter2D psf ref_img in", "C74", "image and kernel exchanged", "Img")
m("apply_otf_to_image", I, "resample_2D (join kr ki) psf dx (Fin ifov)", "resample_2D (join kr ki) blur dx (Fin ifov)", "C74", "blurred image returned for the point spread function", "Img")
