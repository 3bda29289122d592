# wrong programs for the sampling error (C128) and the documented exceptions (C129), and edits of earlier parts
# against theorems that have been added since
M = []
def m(definition, old, new, claim, file, targets):
    M.append(dict(definition=definition, file=file, old=old, new=new, claim=claim, targets=list(targets)))
S = ("Model_Rad", ("Prop_Sample",))
m("signal_rate", "let* integral := trapz tgt_dN (map Fin wl) in\n  Ok (xadd integral (Fin dark_current), tgt_FPA", "let* integral := trapz tgt_dN (map Fin wl) in\n  Ok (integral, tgt_FPA", "C128: dark current left out", *S)
m("signal_rate", "let* e1 := bmap2 (fun t e => xmul (Fin t) e) opt_trans e0 in\n  let* tgt_FPA_irradiance := bmap2 xadd e1", "let* tgt_FPA_irradiance := bmap2 xadd e0", "C128: optics do not absorb", *S)
m("signal_rate", "let* tgt_FPA_irradiance := bmap2 xadd e1 other_irradiance in", "let tgt_FPA_irradiance := e1 in", "C128: camera does not glow", *S)
m("sensor_other_irradiance", "let* c := cold_stop_self_emission wl (s_T_filt s)", "let* c := cold_stop_self_emission wl (s_T_opt s)", "C128: cold filter at the temperature of the optics", *S)
m("sensor_other_irradiance", "let* ab := bmap2 xadd a b in\n  let* c", "let ab := a in\n  let* c", "C128: optics do not glow", *S)
m("cold_shield_self_emission", "PI - PI / (4 * (q * q) + 1)", "PI / (4 * (q * q) + 1)", "C128: shield seen through the stop", *S)
m("optics_self_emission", "Fin (filt_trans * emissivity)", "Fin emissivity", "C128: emission of the optics unfiltered", *S)
m("blackbody_radiance1", "(Fin (lambda0 ^ 5))", "(Fin (lambda0 ^ 4))", "C128: photon radiance", *S)
m("blackbody_radiance1", "(Fin (lambda0 * kc * T)))) (Fin 1))", "(Fin (lambda0 * kc * T)))) (Fin 0))", "C128: Wien's approximation", *S)
m("photon_detection_rate", "l / (hc * cc) * q", "/ (hc * cc) * q", "C128: same energy for all photons", *S)
m("photon_detection_rate", "xmul (Fin (x * w_x * w_y)) e", "xmul (Fin (x * w_x * w_x)) e", "C128: square pixels", *S)
m("trapz", "bmap2 xmul (xdiff x) (xmids y)", "bmap2 xmul (xdiff x) (tl y)", "C128: right-hand rectangles, halved", "Base_Np", ("Prop_Sample",))
m("xmids", "map2 (fun b a => xadd b a) (tl l) l", "map2 (fun b a => xadd b b) (tl l) l", "C128: right-hand rectangles", "Base_Np", ("Prop_Sample",))
m("xdiff", "map2 (fun b a => xsub b a) (tl l) l", "map2 (fun b a => xsub a b) (tl l) l", "C128: integrated backwards", "Base_Np", ("Prop_Sample",))
R = ("Model_Otf", ("Prop_Raises",))
m("common_OTFs", "if Rltb 0 (plain c Cn2At1m)\n    then polychromatic", "if Rleb 0 (plain c Cn2At1m)\n    then polychromatic", "C129: turbulence evaluated for strength 0", *R)
m("common_OTFs", "if Rltb 0 (plain c Cn2At1m)\n    then polychromatic", "if Rltb 0 (plain c HaWindSpeed)\n    then polychromatic", "C129: turbulence switched by the wind", *R)
m("common_OTFs", "(pts : list (R * R)) (wl : list R) (w : list xr) (slant_range int_time : R) : res otfs :=\n  let* ap", "(pts : list (R * R)) (wl : list R) (w : list xr) (slant_range int_time : R) : res otfs :=\n  if Nat.eqb (length pts) 0 then Err IndexError else\n  let* ap", "C129: empty grid rejected, as documented (the finding would be gone)", *R)
m("common_OTFs", "(pts : list (R * R)) (wl : list R) (w : list xr) (slant_range int_time : R) : res otfs :=\n  let* ap", "(pts : list (R * R)) (wl : list R) (w : list xr) (slant_range int_time : R) : res otfs :=\n  if Reqb slant_range 0 then Err ZeroDivisionError else\n  let* ap", "C129: range 0 always rejected, as documented", *R)
m("common_OTFs", "else Ok (map (fun _ => Fin 1) pts, map (fun _ => Fin 1000000) pts) in", "else Ok (map (fun _ => Fin 1) pts, [Fin 1000000]) in", "C129: one number instead of an array without turbulence", *R)
m("common_OTFs", "else Ok (map (fun _ => Fin 1) pts, map (fun _ => Fin 1000000) pts) in", "else Ok ([Fin 1], map (fun _ => Fin 1000000) pts) in", "C129: turbulence factor a single number", *R)
m("common_OTFs", "else Ok (map (fun _ => Fin 1) pts) in\n  let* m", "else Ok [Fin 1] in\n  let* m", "C129: filter factor a single number", *R)
m("common_OTFs", "if Nat.ltb 1 (length (s_kernel s))", "if Nat.ltb 0 (length (s_kernel s))", "C129: filter evaluated for a one-row kernel", *R)
m("polychromatic_turbulence_OTF", "let* (z_path, h_path) := altitude_along_slant_path k 0 altitude slant_range in\n  let cn2", "let* (z_path, h_path) := altitude_along_slant_path Np 0 altitude slant_range in\n  let cn2", "C129: range 0 accepted", *R)
m("weighted_by_wavelength", "| _, _ => Err IndexError", "| _, _ => Ok []", "C129: no bands, empty result", *R)
m("select", "else Err IndexError.", "else Err ValueError.", "C129: other error for unequal lengths", *R)
m("select", "if Nat.eqb (length wl) (length w)", "if Nat.leb (length wl) (length w)", "C129: extra weights ignored", *R)
m("coherence_diameter", "let* q := pydiv (2 * PI) lambda0 in", "let q := 2 * PI / lambda0 in", "C129: wavelength 0 accepted", *R)
m("coherence_diameter", "let* zm := xmaxl z_path in", "let zm := match xmaxl z_path with Ok z => z | Err _ => Fin 0 end in", "C129: empty path accepted", *R)
m("object_domain_defocus_radii", "let* b := pydiv 1 R1 in", "let b := 1 / R1 in", "C129: second distance 0 accepted", *R)
m("image_domain_defocus_radii", "pydiv (0.62 * D * dz) (f * f)", "pydiv (0.62 * D * dz) (f * dz)", "C129: raises without displacement", *R)
# again
m("reference_init", "sr_pix := ri_pix r; sr_refl := ri_refl r", "sr_pix := ri_refl r; sr_refl := ri_pix r", "C88: pixel and reflectance calibration exchanged", "Model_Sim", ("Prop_Sim",))
m("reference_init", "ref_image_init (ravel a) gsd pix refl", "ref_image_init (ravel a) gsd pix None", "C88: given reflectances forgotten", "Model_Sim", ("Prop_Sim",))
m("niirs5_rest", "giqe5 rer_0 rer_90 (Fin gsd_x) (xmul (xsqrt (Fin (s_frames s))) (m_snr (ct_snr ct))) elev", "giqe5 rer_0 rer_90 (Fin gsd_x) (m_snr (ct_snr ct)) elev", "C85: frame stacking ignored", "Model_Met", ("Prop_Stack",))
m("py_last", "| [x] => Ok x | _ :: l => py_last l end.", "| x :: _ => Ok x end.", "C12: lowest instead of nearest lower node", "Model_Db", ("Prop_Db",))
m("apply_otf_to_image", "let* sim := resample_2D (join kr ki) blur dx (Fin ifov) in", "let* sim := resample_2D (join kr ki) ref_img dx (Fin ifov) in", "C119: not blurred", "Model_Img", ("Prop_Apply",))
