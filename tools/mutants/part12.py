# wrong programs against the constructor of Scenario; edits that earlier statements missed, run again
M = []
def m(definition, old, new, claim, file="Model_Defaults", targets=("Prop_Defaults",)):
    M.append(dict(definition=definition, file=file, old=old, new=new, claim=claim if claim.startswith("C") else "C125: " + claim, targets=list(targets)))
S = "signature"
m(S, "(Plain AircraftSpeed, Num 0);", "(Plain AircraftSpeed, Num 1);", "planes fly at 1 m/s by default")
m(S, "Num 0.15", "Num 0.5", "target reflectance")
m(S, "Num 295", "Num 282", "the GIQE temperature as default")
m(S, "Num 0.07", "Num 0.7", "background reflectance")
m(S, "Num 293", "Num 280", "the GIQE temperature of the background as default")
m(S, "Num 21", "Num 10", "wind speed")
m(S, "Num (1.7 / 10 ^ 14)", "Num (1.7 / 10 ^ 15)", "exponent of cn2")
m(S, "(Interp, Flag false)]", "(Interp, Flag true)]", "interpolation by default")
m(S, "(Plain TargetReflectance, Num 0.15);\n   (Plain TargetTemperature, Num 295);", "(Plain TargetTemperature, Num 295);\n   (Plain TargetReflectance, Num 0.15);", "reflectance and temperature in the other order")
m(S, "[(Plain AircraftSpeed, Num 0);", "[(Interp, Flag false); (Plain AircraftSpeed, Num 0);", "interp may come fifth as well")
m("bind_args", "| Some _ => Err TypeError", "| Some _ => let* r := bind_args sig pos kw in Ok ((s, v) :: r)", "a parameter given twice is accepted")
m("bind_args", "| Some _ => Err TypeError", "| Some _ => Err ValueError", "a parameter given twice is a ValueError")
m("bind_args", "match pos with [] => Ok [] | _ => Err TypeError end", "Ok []", "too many arguments are ignored")
m("bind_args", "match lookup s kw with Some v => v | None => d end", "d", "keywords are ignored")
m("as_number", "if b then 1 else 0", "if b then 0 else 1", "True counts as 0")
m("truth", "negb (Req_bool r 0)", "Req_bool r 1", "interp=2 counts as False")
m("truth", "| Flag b => b end", "| Flag b => true end", "interp=False interpolates")
m("construct", "(truth (bound l Interp))", "(truth (bound l (Plain AircraftSpeed)))", "interpolation when the plane moves")
m("construct", "init ih alt gr (truth", "init ih gr alt (truth", "altitude and ground range exchanged")
m("construct", "as_number (bound l (Plain a))", "as_number (bound signature (Plain a))", "attributes keep the defaults whatever is written")
m("init", "cache := None |}; heap := []; loads := 0 |}", "cache := Some 0%nat |}; heap := [fun _ _ => 0]; loads := 0 |}", "constructed with an atmosphere of zeros", "Model_Scenario", ("Prop_Defaults", "Prop_Scenario"))
m("step", "let r := if interp s then interp_load", "let r := if negb (interp s) then interp_load", "the flag means the opposite", "Model_Scenario", ("Prop_Defaults", "Prop_Scenario"))
m("reference_init", "let* r := ref_image_init (ravel a) gsd pix refl in", "let* r := ref_image_init (ravel a) gsd pix None in", "C88: given reflectances forgotten (again)", "Model_Sim", ("Prop_Sim",))
m("reference_init", "let* r := ref_image_init (ravel a) gsd pix refl in", "let* r := ref_image_init (ravel a) gsd None refl in", "C88: given pixel values forgotten", "Model_Sim", ("Prop_Sim",))
m("reference_init", "sr_gsd := ri_gsd r;", "sr_gsd := 1;", "C88: ground sample distance forgotten", "Model_Sim", ("Prop_Sim",))
m("ref_image_init", "| None => Err ValueError", "| None => Ok {| ri_img := img; ri_gsd := gsd; ri_pix := p; ri_refl := [0.05; 0.95] |}", "C21: pixel values without reflectances are accepted", "Model_Sensor", ("Prop_Sensor",))
m("niirs5_rest", "(Fin gsd_x) (xmul (xsqrt (Fin (s_frames s))) (m_snr (ct_snr ct))) elev", "(Fin gsd_x) (m_snr (ct_snr ct)) elev", "C85: frame stacking ignored (again)", "Model_Met", ("Prop_Met", "Prop_Rating"))
