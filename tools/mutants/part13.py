# wrong programs against Planck's curve (C126) and the double precision radiometry (C127)
M = []
def m(definition, old, new, claim, file="Model_F64Rad", targets=("Prop_F64Rad",)):
    M.append(dict(definition=definition, file=file, old=old, new=new, claim=claim if claim.startswith("C") else "C127: " + claim, targets=list(targets)))
R = ("Model_Rad", ("Prop_Planck",))
B = "blackbody_radiance1"
m(B, "(Fin (lambda0 ^ 5))", "(Fin (lambda0 ^ 4))", "C126: radiance per unit of something else", *R)
m(B, "(Fin (lambda0 * kc * T)))) (Fin 1)))", "(Fin (lambda0 * kc * T)))) (Fin 0)))", "C126: Wien approximation", *R)
m(B, "(Fin (2 * hc * (cc * cc)))", "(Fin (2 * hc * cc))", "C126: photons instead of energy", *R)
m("hc", "Definition hc : R := 6.62607004 / 10 ^ 34.", "Definition hc : R := 6.62607004 / 10 ^ 33.", "C126: exponent of Planck's constant", *R)
m("kc", "Definition kc : R := 1.38064852 / 10 ^ 23.", "Definition kc : R := 1.38066 / 10 ^ 23.", "C126: Boltzmann's constant of 1986", *R)
m("hc_f64", "6.62607004e-34", "6.62607015e-34", "Planck's constant of 2019")
m("kc_f64", "1.38064852e-23", "1.380649e-23", "Boltzmann's constant of 2019")
m("cc_f64", "299792458", "3e8", "rounded speed of light")
BF = "blackbody_f64"
m(BF, "fpow cc_f64 2 /", "cc_f64 /", "speed of light not squared")
m(BF, "fpow lambda0 5)", "fpow lambda0 2)", "other power of the wavelength")
m(BF, "(lambda0 * kc_f64 * T)) - 1) (-1)", "(lambda0 * kc_f64 * T))) (-1)", "Wien's approximation")
m(BF, "(2 * hc_f64 * fpow", "(hc_f64 * fpow", "one polarisation")
m(BF, " - 1) (-1).", " - 1) 2.", "exponent of the bracket")
T = "total_radiance_f64"
m(T, "(1 - reflectance) * blackbody_f64", "blackbody_f64", "emissivity left out")
m(T, "* f_trans a + f_scat a", "+ f_scat a", "transmission left out")
m(T, "* f_trans a + f_scat a", "* f_trans a", "scattering left out")
m(T, "f_path a + (1", "(1", "path radiance left out")
m(T, "(reflectance / db_reflectance_f64)", "reflectance", "ground term not normalised")
m("db_reflectance_f64", ": float := 0.15", ": float := 0.07", "other database reflectance")
F = "focal_plane_f64"
m(F, "/ (1 + 4 * fpow (f / D) 2)", "/ (4 * fpow (f / D) 2)", "formula of IBSM")
m(F, "fpow (f / D) 2", "fpow (D / f) 2", "inverse f-number")
m(F, "l * pi_f64 /", "l /", "pi left out")
m(F, "if D =? 0 then Err ZeroDivisionError else\n  Ok", "Ok", "no error without aperture")
D = "detection_rate_f64"
m(D, "l / (hc_f64 * cc_f64) * q", "l * q", "photon energy left out")
m(D, "x * w_x * w_y * e", "x * w_x * w_x * e", "width twice")
m("diff_f64", "fun b a => b - a", "fun b a => a - b", "steps backwards")
m("pairs_f64", "fun b a => b + a", "fun b a => b + b", "right-hand rectangles")
m("trapz_f64", "d * s / 2", "d * s", "not halved")
S = "signal_rate_f64"
m(S, "Ok (integral + dark_current)", "Ok integral", "dark current left out")
m(S, "let* tgt_FPA_irradiance := bmap2 add e1 other_irradiance in", "let* tgt_FPA_irradiance := Ok e1 in", "stray light left out")
m(S, "let* e1 := bmap2 mul opt_trans e0 in", "let* e1 := Ok e0 in", "transmission of the optics left out")
m("pi_f64", "3.141592653589793", "3.1415927", "single precision pi", "Model_F64Aperture")
