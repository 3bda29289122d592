# wrong programs against sensors that no analysis accepts (C136)
M = []
def m(definition, old, new, claim, file):
    M.append(dict(definition=definition, file=file, old=old, new=new, claim=claim, targets=["Prop_Tables"]))
m("niirs5", "Ok ct => let s' := no_sharpening s in (s', c', niirs5_rest diag s' c' ct)", "Ok ct => (s, c', niirs5_rest diag (no_sharpening s) c' ct)", "C136: niirs5 keeps the kernel of the caller", "Model_Met")
m("niirs5", "| Err e => (s, c', Err e)", "| Err e => (no_sharpening s, c', Err e)", "C136: kernel replaced before the contrast is computed", "Model_Met")
m("niirs5", "| Err e => (s, c', Err e)", "| Err e => (s, c, Err e)", "C136: scenario restored when the contrast cannot be computed", "Model_Met")
m("niirs", "(c', let* ct := contrast_part s atm is_emissive in niirs_rest diag s c' ct)", "match contrast_part s atm is_emissive with Ok ct => (c', niirs_rest diag s c' ct) | Err e => (c, Err e) end", "C136: scenario restored when the contrast cannot be computed (niirs)", "Model_Met")
m("bookkeeping", "set_plain BackgroundReflectance 0.07 (set_plain TargetReflectance 0.15 c)", "set_plain BackgroundReflectance 0.15 (set_plain TargetReflectance 0.07 c)", "C136: reflectances exchanged", "Model_Met")
m("bookkeeping", "(1%Z, set_plain TargetTemperature 280 (set_plain TargetTemperature 282", "(1%Z, set_plain TargetTemperature 282 (set_plain TargetTemperature 280", "C136: temperature of the target left in the scenario", "Model_Met")
m("cold_shield_self_emission", "let* q := pydiv f D in\n  Ok (map (xmul (Fin (PI - PI / (4 * (q * q) + 1))))", "let* q := pydiv D f in\n  Ok (map (xmul (Fin (PI - PI / (4 / (q * q) + 1))))", "C136: a focal length of zero raises before the kernel is replaced, an aperture of zero does not raise there", "Model_Rad")
m("resample_by_wavelength", "let* tab := interp_table wl values in\n  Ok (map (fun x => interp_tab x tab 0 0) new)", "Ok (map (fun x => interp_tab x (combine wl values) 0 0) new)", "C136: tables of unequal lengths cut to the shorter", "Model_Rad")
m("interp_table", "then Ok (combine xp fp) else Err ValueError", "then Ok (combine xp fp) else Err IndexError", "C136: other exception for tables of unequal lengths", "Base_Np")
m("niirs_rest", "let* ifov_x := pydiv (s_px s) (s_f s) in\n  let* ifov_y := pydiv (s_py s) (s_f s) in\n  let gsd_x := ifov_x * slant_range in\n  let gsd_y", "let ifov_x := s_px s / s_f s in\n  let ifov_y := s_py s / s_f s in\n  let gsd_x := ifov_x * slant_range in\n  let gsd_y", "C136: niirs accepts a focal length of zero", "Model_Met")
m("niirs5_rest", "let* ifov_x := pydiv (s_px s) (s_f s) in\n  let* ifov_y := pydiv (s_py s) (s_f s) in\n  let gsd_x := ifov_x * slant_range in\n  let* mtf", "let ifov_x := s_px s / s_f s in\n  let ifov_y := s_py s / s_f s in\n  let gsd_x := ifov_x * slant_range in\n  let* mtf", "C136: niirs5 accepts a focal length of zero", "Model_Met")
m("common_OTFs", "(pts : list (R * R)) (wl : list R) (w : list xr) (slant_range int_time : R) : res otfs :=\n  let* ap", "(pts : list (R * R)) (wl : list R) (w : list xr) (slant_range int_time : R) : res otfs :=\n  if Reqb (s_f s) 0 then Err ValueError else\n  let* ap", "C136: other exception for a focal length of zero", "Model_Otf")
