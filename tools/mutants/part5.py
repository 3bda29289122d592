# wrong programs against the theorems about turned, matched and displaced pictures
M = []
def m(definition, file, old, new, prop, claim, *targets):
    M.append(dict(definition=definition, file="Model_" + file, old=old, new=new, claim=prop + ": " + claim, targets=["Prop_" + t for t in targets]))
# C114 turned pictures
m("simulate_rest", "Sim", "pydiv ((s_px s + s_py s) / 2) (s_f s) in", "pydiv (s_px s) (s_f s) in", "C114", "field of view of a pixel from the pitch along x only", "TurnSim")
m("simulate_rest", "Sim", "pydiv ((s_px s + s_py s) / 2) (s_f s) in", "pydiv (Rmax (s_px s) (s_py s)) (s_f s) in", "C115", "field of view from the larger pitch", "TurnSim", "Native")
m("common_OTFs", "Otf", "jitter_OTF u v (s_sx s) (s_sy s)", "jitter_OTF u v (s_sx s) (s_sx s)", "C114", "jitter along x in both directions", "TurnSim")
m("common_OTFs", "Otf", "detector_OTF u v (s_wx s) (s_wy s) (s_f s)", "detector_OTF u v (s_wx s) (s_wx s) (s_f s)", "C114", "square detectors", "TurnSim")
m("common_OTFs", "Otf", "drift_OTF u v (s_dax s * int_time * s_ntdi s) (s_day s * int_time * s_ntdi s)", "drift_OTF u v (s_dax s * int_time * s_ntdi s) (s_day s * int_time)", "C114", "drift along y during one stage only", "TurnSim")
m("common_OTFs", "Otf", "(s_Lx s) (s_Ly s)", "(s_Ly s) (s_Ly s)", "C114", "one correlation length for the wavefront", "TurnSim")
m("resample_2D", "Img", "let* qy := qdiv k (xmul (Fin (INR (rows a))) dx_in) dx_out in", "let* qy := qdiv k (xmul (Fin (INR (cols a))) dx_in) dx_out in", "C115", "height from the number of columns", "TurnSim", "Native")
m("cv_resize", "Img", "let (y, t) := rs_pos (rows a) hn i in", "let (y, t) := rs_pos (rows a) wn i in", "C114", "vertical positions from the width", "TurnSim")
m("filter2D", "Img", "(reflect101 (cols a) (Z.of_nat x + Z.of_nat q - Z.of_nat (cols k / 2)))", "(reflect101 (cols a) (Z.of_nat x + Z.of_nat q - Z.of_nat (rows k / 2)))", "C114", "horizontal anchor from the height of the kernel", "TurnSim")
m("filter2D", "Img", "(reflect101 (cols a) (Z.of_nat x + Z.of_nat q - Z.of_nat (cols k / 2)))", "(reflect101 (rows a) (Z.of_nat x + Z.of_nat q - Z.of_nat (cols k / 2)))", "C114", "reflected at the wrong border", "TurnSim")
m("add_noise", "Sim", "(Fin (d_normal d i j))", "(Fin (d_normal d j i))", "C88", "noise of the mirrored pixel (turning does not show it)", "TurnSim", "Sim")
m("add_noise", "Sim", "(Fin (d_normal d i j))", "(Fin (d_normal d i 0%nat))", "C114", "noise repeated along the rows", "TurnSim")
m("to_photoelectrons", "Sim", "px := fun i j => match xpx a i j with", "px := fun i j => match xpx a i 0%nat with", "C114", "first column repeated", "TurnSim")
m("ravel", "Sim", "map (px a i) (seq 0 (cols a))", "map (px a i) (seq 0 (rows a))", "C114", "percentiles of a square part of the picture", "TurnSim")
m("g_noise_of", "Sim", "(Fin (s_read s * s_read s))", "(Fin (s_read s * s_read s * (s_px s / s_py s)))", "C114", "read noise by the shape of the pixel", "TurnSim")
m("otf_image", "Sim", "re := fun i j => nth (i * n + j) l 0", "re := fun i j => nth (j * n + i) l 0", "C114", "transfer function transposed (turning does not show it)", "TurnSim", "Sim")
m("simulate_otf", "Sim", "let v := freqs_sim 1 (-1) cutoff in", "let v := freqs_sim 1 (-1 / 2) cutoff in", "C114", "vertical frequencies not symmetric", "TurnSim", "Centre")
m("simulate_otf", "Sim", "let u := freqs_sim (-1) 1 cutoff in", "let u := freqs_sim 0 1 cutoff in", "C114", "positive horizontal frequencies only", "TurnSim", "Centre")
# C115 matched pixels
m("resample_size_f64", "F64Size", "f_int_round (f_of_Z side * dx_in / dx_out)", "f_int (f_of_Z side * dx_in / dx_out)", "C115", "size cut off instead of rounded", "Native")
m("resample_size_f64", "F64Size", "f_int_round (f_of_Z side * dx_in / dx_out)", "f_int_round (f_of_Z side * dx_out / dx_in)", "C115", "spacings exchanged", "Native")
m("resample_size_f64", "F64Size", "f_int_round (f_of_Z side * dx_in / dx_out)", "f_int_round (f_of_Z side * (dx_in / dx_out))", "C115", "quotient first: more exact at equal spacings, sizes within the stated error", "Native")
m("resample_size_f64", "F64Size", "f_int_round (f_of_Z side * dx_in / dx_out)", "f_int_round (f_of_Z side * dx_in / dx_out + 0.5)", "C115", "half a pixel added before rounding", "Native")
m("psf_size_f64", "F64Size", "let* x := f_int (f_of_Z side", "let* x := f_int_round (f_of_Z side", "C115", "rounding as in resample_2D: no sample is lost (the refutation must fail)", "Native")
m("psf_size_f64", "F64Size", "Ok (Z.max 1 x)", "Ok x", "C115", "no lower limit: a frame of less than one pixel vanishes", "Native")
m("psf_spacing_f64", "F64Size", "1 / (f_of_Z rows * df)", "1 / ((f_of_Z rows - 1) * df)", "C115", "frame counted between the outermost samples", "Native")
m("f_int", "F64Size", "Ok (Z.quot (sf_num (sf_signed s m) e) (sf_den e))", "Ok (1 + Z.quot (sf_num (sf_signed s m) e) (sf_den e))%Z", "C115", "int one too large", "Native")
m("z_round", "F64Size", "| Eq => if Z.even q then q else (q + 1)%Z", "| Eq => (q + 1)%Z", "C115", "ties rounded up (no claim about ties: may survive)", "Native")
m("z_round", "F64Size", "| Gt => (q + 1)%Z", "| Gt => q", "C115", "never rounded up", "Native")
m("capture_focal_f64", "F64Size", "altitude * capture_pitch_f64 / gsd", "altitude * capture_pitch_f64 / (2 * gsd)", "C115", "camera estimated for twice the ground sample distance", "Native")
m("capture_size_f64", "F64Size", "((capture_pitch_f64 + capture_pitch_f64) / 2 /", "((capture_pitch_f64 + capture_pitch_f64) /", "C115", "sum of the pitches instead of their mean", "Native")
m("capture_size_f64", "F64Size", "(gsd / slant_flat_f64 altitude 0)", "(gsd / slant_flat_f64 altitude altitude)", "C115", "range of a slanted view", "Native")
m("resample_2D", "Img", "let* new_x := xint_round qx in", "let* new_x := xint qx in", "C74", "width cut off (the same at equal spacings)", "Native", "Img")
m("apply_otf_to_image", "Img", "let* dx := qdiv kr (Fin ref_gsd) (Fin ref_range) in", "let* dx := qdiv kr (Fin (2 * ref_gsd)) (Fin ref_range) in", "C115", "pixels of the reference picture twice as large", "Native")
m("apply_otf_to_image", "Img", "let* sim := resample_2D (join kr ki) blur dx (Fin ifov) in", "let* sim := resample_2D (join kr ki) ref_img dx (Fin ifov) in", "C99", "not blurred at all (a kernel of one pixel)", "Native", "Sim")
m("slant_flat", "Sim", "sqrt (altitude c * altitude c + ground_range c * ground_range c)", "sqrt (altitude c * altitude c + ground_range c)", "C115", "slant range wrong away from the nadir", "Native")
# C116 displaced pictures
m("filter2D", "Img", "(reflect101 (rows a) (Z.of_nat y + Z.of_nat p - Z.of_nat (rows k / 2)))", "(reflect101 (rows a) (Z.of_nat y + Z.of_nat p - Z.of_nat ((rows k - 1) / 2)))", "C116", "anchor before the middle: even kernels displace upwards", "Centre")
m("filter2D", "Img", "(reflect101 (rows a) (Z.of_nat y + Z.of_nat p - Z.of_nat (rows k / 2)))", "(reflect101 (rows a) (Z.of_nat y - Z.of_nat p + Z.of_nat (rows k / 2)))", "C116", "convolution instead of correlation: even kernels displace upwards", "Centre")
m("filter2D", "Img", "(reflect101 (rows a) (Z.of_nat y + Z.of_nat p - Z.of_nat (rows k / 2)))", "(reflect101 (rows a) (Z.of_nat y + Z.of_nat p))", "C116", "anchor in the corner", "Centre")
m("mid_slice", "Img", "py_slice d ((d - k) / 2) (- ((- (d + k)) / 2))", "py_slice d ((d - k) / 2) ((d + k) / 2)", "C116", "crop not symmetric for unequal parity", "Centre")
m("mid_slice", "Img", "py_slice d ((d - k) / 2) (- ((- (d + k)) / 2))", "py_slice d (Z.max 0 ((d - k) / 2)) (- ((- (d + k)) / 2))", "C116", "crop does not wrap: no whole-pixel displacement (the refutation must fail)", "Centre")
m("py_slice", "Img", "Z.max 0 (v + d)", "(v + d)%Z", "C116", "negative start after wrapping", "Centre")
m("crop_loop", "Img", "if Rltb 0.95 (isum c) then", "if Rltb 0.99 (isum c) then", "C116", "crop at 99 percent", "Centre")
m("crop_loop", "Img", "if Rltb 0.95 (isum c) then", "if Rltb 0.5 (isum c) then", "C72", "crop at 50 percent (still centred)", "Centre", "Psf")
m("crop_sizes", "Img", "10 + 5 * i)%nat", "12 + 5 * i)%nat", "C116", "crop sizes from 12", "Centre")
m("otf_to_psf", "Img", "let* x := xint (xdiv (xmul (Fin (INR (cols psf))) dx_in) dx_out) in", "let* x := xint_round (xdiv (xmul (Fin (INR (cols psf))) dx_in) dx_out) in", "C116", "width rounded: another parity", "Centre")
m("otf_to_psf", "Img", "let* psf := cv_resize psf (Z.max 1 x) (Z.max 1 y) in", "let* psf := cv_resize psf (Z.max 2 x) (Z.max 2 y) in", "C116", "at least two pixels: a frame of one pixel displaces", "Centre")
m("otf_to_psf", "Img", "Ok (iscale (isum c) c)", "Ok c", "C116", "crop not normalised", "Centre")
m("rs_pos", "Img", "let f := (INR x + 0.5) * (INR n / INR m) - 0.5 in", "let f := INR x * (INR n / INR m) in", "C116", "resizing from the corner", "Centre")
m("rs_pos", "Img", "let f := (INR x + 0.5) * (INR n / INR m) - 0.5 in", "let f := (INR x + 0.5) * (INR n / INR m) - 0.4 in", "C116", "resizing a tenth of a sample off", "Centre")
m("fsh", "Img", "((i + (n - n / 2)) mod n)%nat", "((i + n / 2) mod n)%nat", "C116", "inverse shift (right for the input, wrong for the output)", "Centre")
m("psf_raw", "Img", "px := fun i j => ifft_re n m (sh (re otf)) (sh (im otf)) (fsh n i) (fsh m j)", "px := fun i j => ifft_re n m (sh (re otf)) (sh (im otf)) i j", "C116", "output not shifted: the peak in the corner", "Centre")
m("ifft_re", "Img", "(X p q * cos ph - Y p q * sin ph)", "(X p q * cos ph - X p q * sin ph)", "C116", "not symmetric", "Centre")
m("cv_resize", "Img", "(1 - t) * ((1 - s) * px a y x + s * px a y (x + 1)%nat)", "(1 - t) * (s * px a y x + (1 - s) * px a y (x + 1)%nat)", "C116", "weights exchanged in the upper row", "Centre")
m("simulate_otf", "Sim", "let df := (Rabs (nth 1 u 0 - nth 0 u 0) + Rabs (nth 0 v 0 - nth 1 v 0)) / 2 in", "let df := Rabs (nth 1 u 0 - nth 0 u 0) + Rabs (nth 0 v 0 - nth 1 v 0) in", "C116", "frequency spacing doubled: half the frame", "Centre")
m("n_sim", "Sim", "Definition n_sim : nat := 1501.", "Definition n_sim : nat := 1500.", "C116", "even number of frequencies", "Centre")
