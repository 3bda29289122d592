# wrong programs against the slice lengths, the limit of three octaves and the baseline camera
M = []
def m(definition, file, old, new, prop, claim, *targets):
    M.append(dict(definition=definition, file=file if file.startswith("Base") else "Model_" + file, old=old, new=new, claim=prop + ": " + claim, targets=["Prop_" + t for t in targets]))
# C122
S = "F64Slice"
m("f_ceil", S, "Ok (- ((- sf_num (sf_signed s m) e) / sf_den e))%Z", "Ok (sf_num (sf_signed s m) e / sf_den e)%Z", "C122", "length rounded down", S)
m("f_ceil", S, "Ok (- ((- sf_num (sf_signed s m) e) / sf_den e))%Z", "Ok (z_round (sf_num (sf_signed s m) e) (sf_den e))", "C122", "length rounded to the nearest integer: never a sample on the edge", S)
m("arange_len", S, "Ok (Z.max 0 c)", "Ok (Z.max 0 c + 1)%Z", "C122", "end point included", S)
m("slice_u_f64", S, "((1 - (-1)) / f_of_Z (n - 1))", "((1 - (-1)) / f_of_Z n)", "C122", "coordinates without the end point", S)
m("slice_u_f64", S, "f_of_Z i * ((1 - (-1)) / f_of_Z (n - 1)) + (-1)", "f_of_Z (i * 2 - (n - 1)) / f_of_Z (n - 1)", "C122", "coordinates rounded once only", S)
m("slice_step_f64", S, "slice_u_f64 n 1 - slice_u_f64 n 0", "2 / f_of_Z (n - 1)", "C122", "the step computed directly: no sample on the edge for any odd size below 2^25", S)
m("slice_step_f64", S, "slice_u_f64 n 1 - slice_u_f64 n 0", "slice_u_f64 n 0 - slice_u_f64 n 1", "C122", "negative step: no samples", S)
m("slice_count_f64", S, "arange_len 0 1 (slice_step_f64 n)", "arange_len (-1) 1 (slice_step_f64 n)", "C122", "slice through the whole array", S)
m("slice_radius_f64", S, "0 + f_of_Z i * slice_step_f64 n", "f_of_Z i / f_of_Z n", "C122", "positions half as far apart", S)
m("slice_radius_f64", S, "0 + f_of_Z i * slice_step_f64 n", "f_of_Z (i + 1) * slice_step_f64 n", "C122", "positions one row too far out", S)
# C22, C116
E = "Sensor"
m("estimate_capture_parameters", E, "Fin (4 * median2 (380 / 10 ^ 9) (700 / 10 ^ 9))", "Fin (8 * median2 (380 / 10 ^ 9) (700 / 10 ^ 9))", "C116", "aperture twice as large: a frame half as large", "Baseline")
m("estimate_capture_parameters", E, "Fin (4 * median2 (380 / 10 ^ 9) (700 / 10 ^ 9))", "Fin (median2 (380 / 10 ^ 9) (700 / 10 ^ 9) / 4)", "C22", "aperture small enough for the reference pixels: the picture is sampled finely enough", "Baseline")
m("estimate_capture_parameters", E, "let* x := pydiv (p / 2) f in", "let* x := pydiv p f in", "C116", "pixel angle twice as large, aperture half as large", "Baseline")
m("estimate_capture_parameters", E, "let wl := [380 / 10 ^ 9; 700 / 10 ^ 9] in", "let wl := [400 / 10 ^ 9; 700 / 10 ^ 9] in", "C116", "band of the camera from 400 nm: nothing arrives at 380 or 390 nm", "Baseline")
m("estimate_capture_parameters", E, "| AircraftSpeed => 0 | HaWindSpeed => 0 | Cn2At1m => 0", "| AircraftSpeed => 0 | HaWindSpeed => 21 | Cn2At1m => 1.7 / 10 ^ 14", "C116", "turbulent air", "Baseline", "Sim")
m("estimate_capture_parameters", E, "let p := 20 / 10 ^ 6 in", "let p := 10 / 10 ^ 6 in", "C116", "pitch of 10 micrometres (the focal length follows: nothing changes in the picture)", "Baseline", "Sim")
# C64
O = "Otf"
m("wind_speed_turbulence_OTF", O, "Ok (xadd (xmul weight (turbulence_OTF u v lambda0 D r0 0.5))", "Ok (xadd (xmul weight (turbulence_OTF u v lambda0 D r0 0))", "C64", "long exposure only: no band amplifies", "Wide", "System")
m("polychromatic_turbulence_OTF", O, "let* otf := weighted_by_wavelength wl w turb in", "let* otf := turb (hd 0 wl) in", "C64", "turbulence of the first wavelength only: no mixture of wavelengths", "Wide", "System")
m("common_OTFs", O, "let* m := bmap2 xmul ap turb in", "let* m := bmap2 xmul ap (map (fun x => xmin x (Fin 1)) turb) in", "C64", "turbulence never above one: no band amplifies", "Wide", "System")
