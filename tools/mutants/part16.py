# wrong programs for the documented non-finite values (C130) and the camera band of C116
M = []
def m(definition, old, new, claim, file="Model_Otf", targets=("Prop_Nonfinite",)):
    M.append(dict(definition=definition, file=file, old=old, new=new, claim="C130: " + claim if not claim.startswith("C1") else claim, targets=list(targets)))
T = "xexp (xmul (xmul (Fin (-3.44)) (xpow (xdiv lr r0) (5 / 3)))\n             (xsub (Fin 1) (xmul (Fin alpha) (xpow (xdiv lr (Fin D)) (1 / 3)))))"
m("detector_OTF", "xmul (xsinc (xdiv (Fin (w_x * u)) (Fin f))) (xsinc (xdiv (Fin (w_y * v)) (Fin f))).\n\n(* 374", "if Reqb f 0 then Fin 1 else xmul (xsinc (xdiv (Fin (w_x * u)) (Fin f))) (xsinc (xdiv (Fin (w_y * v)) (Fin f))).\n\n(* 374", "f = 0 answered with 1")
m("detector_OTF", "xmul (xsinc (xdiv (Fin (w_x * u)) (Fin f))) (xsinc (xdiv (Fin (w_y * v)) (Fin f))).\n\n(* 374", "xmul (xsinc (xdiv (Fin f) (Fin (w_x * u)))) (xsinc (xdiv (Fin (w_y * v)) (Fin f))).\n\n(* 374", "quotient upside down")
m("detector_OTF", "xmul (xsinc (xdiv (Fin (w_x * u)) (Fin f))) (xsinc (xdiv (Fin (w_y * v)) (Fin f))).\n\n(* 374", "xnan_to_num (xmul (xsinc (xdiv (Fin (w_x * u)) (Fin f))) (xsinc (xdiv (Fin (w_y * v)) (Fin f)))).\n\n(* 374", "nan replaced by 0")
m("turbulence_OTF", T, T.replace("xdiv lr (Fin D)", "xdiv (Fin D) lr"), "D over lambda rho")
m("turbulence_OTF", T, T.replace("(xsub (Fin 1) (xmul", "(xadd (Fin 1) (xmul"), "sign of the short-exposure correction")
m("turbulence_OTF", T, T.replace("(Fin (-3.44))", "(Fin 3.44)"), "growing instead of decaying")
m("turbulence_OTF", T, "if Reqb D 0 then Fin 0 else " + T, "no aperture, no transfer")
m("turbulence_OTF", T, "if Reqb alpha 0 then xexp (xmul (Fin (-3.44)) (xpow (xdiv lr r0) (5 / 3))) else " + T, "long exposure without the aperture term")
m("turbulence_OTF", T, T.replace("xdiv lr r0", "xdiv r0 lr"), "coherence diameter upside down")
m("turbulence_OTF", "let lr := xmul (Fin lambda0) rho in", "let lr := xdiv rho (Fin lambda0) in", "divided by the wavelength")
m("wind_speed_turbulence_OTF", "Ok (xadd (xmul weight (turbulence_OTF u v lambda0 D r0 0.5))\n           (xmul (xsub (Fin 1) weight) (turbulence_OTF u v lambda0 D r0 0)))", "Ok (turbulence_OTF u v lambda0 D r0 0.5)", "short exposure only")
m("wind_speed_turbulence_OTF", "(turbulence_OTF u v lambda0 D r0 0)))", "(turbulence_OTF u v lambda0 D r0 0.5)))", "both shares short exposure: infinite less infinite or infinite")
m("wind_speed_turbulence_OTF", "let* e := kdiv k (Fin (- vel * t_d)) r0 in\n  let weight", "let* e := kdiv k r0 (Fin (- vel * t_d)) in\n  let weight", "drift upside down")
m("wavefront_OTF", "xexp (xmul (xopp pv) (xsub (Fin 1) auto_c))", "xexp (xmul (xopp pv) (xsub (Fin 0) auto_c))", "correlation not subtracted from 1")
m("wavefront_OTF", "let auto_c := xexp (xmul (Fin (- (lambda0 * lambda0)))", "let auto_c := xexp (xmul (xdiv (Fin (-1)) (Fin (lambda0 * lambda0)))", "divided by the wavelength: undefined at 0")
m("wavefront_OTF", "(xadd (xsq (xdiv (Fin u) (Fin L_x))) (xsq (xdiv (Fin v) (Fin L_y))))) in\n  xexp", "(xadd (xsq (xdiv (Fin u) (Fin L_x))) (xsq (xdiv (Fin v) (Fin L_x))))) in\n  xexp", "one correlation length for both directions")
m("wavefront_OTF", "(xadd (xsq (xdiv (Fin u) (Fin L_x))) (xsq (xdiv (Fin v) (Fin L_y))))) in\n  xexp", "(xadd (xsq (xmul (Fin u) (Fin L_x))) (xsq (xmul (Fin v) (Fin L_y))))) in\n  xexp", "lengths multiplied: never undefined")
m("weighted_by_wavelength", "let w := map (fun x => xdiv x s) w in", "let w := map (fun x => xnan_to_num (xdiv x s)) w in", "zero weights give 0")
m("weighted_by_wavelength", "let w := map (fun x => xdiv x s) w in", "let w := w in", "weights not normalised")
m("weighted_by_wavelength", "let s := xsum w in", "let s := xadd (Fin 1) (xsum w) in", "one more in the sum")
m("coherence_diameter", "let* sp_integral := trapz p z_path in", "let* sp_integral := Ok (xsum p) in", "sum instead of integral")
m("coherence_diameter", "(- (3 / 5))).\n\n(* 1053", "(3 / 5)).\n\n(* 1053", "0 without turbulence")
m("coherence_diameter", "let* zm := xmaxl z_path in", "let* zm := xminl z_path in", "scaled by the nearest sample")
m("coherence_diameter", "(Fin 0.423)) (Fin (q * q))", "(Fin 0.423)) (Fin q)", "wave number not squared")
m("coherence_diameter", "(Fin 0.423)) (Fin (q * q))", "(Fin 0.16)) (Fin (q * q))", "plane-wave constant")
m("circular_aperture_OTF", "then Ok (xdiv (xadd (xadd (xadd a b) c_1) c_2) (Fin (1 - eta * eta)))\n  else Ok a.", "then Ok (xadd (xadd (xadd a b) c_1) c_2)\n  else Ok a.", "not normalised")
m("circular_aperture_OTF", "let c_2 := xnan_to_num c_2 in\n  let c_2 := xmul c_2 (b2x (xle", "let c_2 := xmul c_2 (b2x (xle", "undefined phase kept")
m("circular_aperture_OTF", "let c_1 := xmul (Fin (-2 * (eta * eta)))\n               (b2x (xlt rho", "let c_1 := xmul (Fin (-2 * (eta * eta)))\n               (b2x (xle rho", "tie counted: nan at zero frequency as well")
B = ("Model_Sensor", ("Prop_Baseline",))
m("estimate_capture_parameters", "let wl := [380 / 10 ^ 9; 700 / 10 ^ 9] in", "let wl := [400 / 10 ^ 9; 700 / 10 ^ 9] in", "C116: band of the camera from 400 nm: the frame is 138 pixels", *B)
m("estimate_capture_parameters", "let wl := [380 / 10 ^ 9; 700 / 10 ^ 9] in", "let wl := [370 / 10 ^ 9; 700 / 10 ^ 9] in", "C116: band of the camera from 370 nm: the frame is 128 pixels", *B)
m("estimate_capture_parameters", "let wl := [380 / 10 ^ 9; 700 / 10 ^ 9] in", "let wl := [380 / 10 ^ 9; 385 / 10 ^ 9] in", "C116: band of the camera ends at 385 nm", *B)
m("estimate_capture_parameters", "Fin (4 * median2 (380 / 10 ^ 9) (700 / 10 ^ 9))", "Fin (2 * median2 (380 / 10 ^ 9) (700 / 10 ^ 9))", "C116: aperture halved: the frame is 263 pixels", *B)
