# wrong programs against the closed forms of apply_otf_to_image and simulate_image, and direct calls of otf_to_psf
M = []
def m(definition, file, old, new, prop, claim, *targets):
    M.append(dict(definition=definition, file=file if file.startswith("Base") else "Model_" + file, old=old, new=new, claim=prop + ": " + claim, targets=["Prop_" + t for t in targets]))
I = "Img"
# C119: the kernel
m("fsh", I, "((i + (n - n / 2)) mod n)%nat", "((i + n / 2) mod n)%nat", "C119", "ifftshift instead of fftshift: odd sizes move by one", "Apply")
m("ifft_re", I, "(X p q * cos ph - Y p q * sin ph)", "(X p q * cos ph + Y p q * sin ph)", "C119", "forward transform instead of the inverse one", "Apply")
m("ifft_re", I, "2 * PI * (INR p * INR a / INR n + INR q * INR b / INR m)", "2 * PI * (INR p * INR a / INR m + INR q * INR b / INR n)", "C119", "axes exchanged in the transform", "Apply")
m("psf_raw", I, "ifft_re n m (sh (re otf)) (sh (im otf)) (fsh n i) (fsh m j)", "ifft_re n m (sh (re otf)) (sh (im otf)) i j", "C119", "second fftshift forgotten", "Apply")
m("psf_raw", I, "ifft_re n m (sh (re otf)) (sh (im otf)) (fsh n i) (fsh m j)", "ifft_re n m (re otf) (im otf) (fsh n i) (fsh m j)", "C119", "first fftshift forgotten", "Apply")
m("rs_pos", I, "(INR x + 0.5) * (INR n / INR m) - 0.5", "INR x * (INR n / INR m)", "C119", "pixel corners instead of centres", "Apply")
m("rs_pos", I, "(INR x + 0.5) * (INR n / INR m) - 0.5", "INR x * (INR (n - 1) / INR (m - 1))", "C119", "corners aligned", "Apply")
m("rs_pos", I, "else (Z.to_nat s, f - IZR s).", "else (Z.to_nat s, 0).", "C119", "nearest lower sample", "Apply")
m("cv_resize", I, "(1 - t) * ((1 - s) * px a y x + s * px a y (x + 1)%nat)", "(1 - t) * (s * px a y x + (1 - s) * px a y (x + 1)%nat)", "C119", "weights of the upper row exchanged", "Apply")
m("py_slice", I, "Z.max 0 (v + d) else Z.min v d", "Z.max 0 v else Z.min v d", "C119", "negative bounds cut at 0 instead of counted from the end", "Apply")
m("mid_slice", I, "py_slice d ((d - k) / 2) (- ((- (d + k)) / 2))", "py_slice d ((d - k) / 2) ((d + k) / 2)", "C119", "upper bound rounded down", "Apply")
m("mid_slice", I, "py_slice d ((d - k) / 2) (- ((- (d + k)) / 2))", "py_slice d (- (- (d - k) / 2)) (- ((- (d + k)) / 2))", "C119", "lower bound rounded up", "Apply")
m("get_middle", I, "let (j0, w) := mid_slice (Z.of_nat (cols a)) (Z.of_nat k) in", "let (j0, w) := mid_slice (Z.of_nat (rows a)) (Z.of_nat k) in", "C119", "columns cut by the number of rows", "Apply")
m("get_middle", I, "px a (Z.to_nat i0 + i)%nat (Z.to_nat j0 + j)%nat", "px a (Z.to_nat j0 + i)%nat (Z.to_nat i0 + j)%nat", "C119", "offsets exchanged", "Apply")
m("crop_sizes", I, "map (fun i => 10 + 5 * i)%nat", "map (fun i => 11 + 5 * i)%nat", "C119", "windows 11, 16, 21, ...", "Apply")
m("crop_sizes", I, "map (fun i => 10 + 5 * i)%nat", "map (fun i => 10 + 10 * i)%nat", "C119", "windows in steps of ten", "Apply")
m("crop_sizes", I, "((m - 10 + 4) / 5)", "((m - 10) / 5)", "C119", "last window left out", "Apply")
m("crop_loop", I, "if Rltb 0.95 (isum c) then Some c", "if Rltb 0.90 (isum c) then Some c", "C119", "90 percent are enough", "Apply")
m("crop_loop", I, "if Rltb 0.95 (isum c) then Some c", "if Rleb 0.95 (isum c) then Some c", "C119", "exactly 95 percent are enough", "Apply")
m("crop_loop", I, "else crop_loop psf sizes (Some c)", "else crop_loop psf sizes out", "C119", "no window is kept as the last resort", "Apply")
m("otf_to_psf_k", I, "Ok (iscale (isum c) c)", "Ok c", "C119", "cut kernel not rescaled", "Apply", "Img")
m("otf_to_psf_k", I, "match crop_loop (iscale s psf) sizes None with", "match crop_loop psf sizes None with", "C119", "threshold on the unscaled sum", "Apply", "Img")
m("otf_to_psf_k", I, "qdiv kd (Fin 1) (Fin (INR (crows otf) * df))", "qdiv kd (Fin 1) (Fin (INR (ccols otf) * df))", "C119", "sample spacing by the columns", "Apply", "Img")
m("otf_to_psf_k", I, "cv_resize psf (Z.max 1 x) (Z.max 1 y)", "cv_resize psf (Z.max 1 y) (Z.max 1 x)", "C119", "width and height exchanged", "Apply", "Img")
m("otf_to_psf_k", I, "cv_resize psf (Z.max 1 x) (Z.max 1 y)", "cv_resize psf (Z.max 2 x) (Z.max 2 y)", "C119", "at least two samples", "Apply", "Img")
m("otf_to_psf_k", I, "crop_sizes (Nat.min (crows otf) (ccols otf))", "crop_sizes (Nat.max (crows otf) (ccols otf))", "C119", "windows up to the longer side", "Apply", "Img")
m("otf_to_psf_k", I, "let* qx := qdiv (join ko kd) (xmul", "let* qx := qdiv ko (xmul", "C69", "kind of df forgotten in the first quotient (direct call)", "Img")
m("otf_to_psf_k", I, "let* qx := qdiv (join ko kd) (xmul", "let* qx := qdiv kd (xmul", "C69", "kind of dx_out forgotten in the first quotient (direct call)", "Img")
m("otf_to_psf", I, "res img := otf_to_psf_k Np.", "res img := otf_to_psf_k Py.", "C69", "dx_out taken for a Python number", "Img")
# C119: blurring and resampling
m("reflect101", I, "if Z.ltb r (Z.of_nat n) then r else (per - r)%Z", "if Z.ltb r (Z.of_nat n) then r else (per - r - 1)%Z", "C119", "mirror image one pixel off", "Apply")
m("reflect101", I, "(2 * (Z.of_nat n - 1))%Z", "(2 * Z.of_nat n)%Z", "C119", "period of the other border mode", "Apply")
m("filter2D", I, "(Z.of_nat y + Z.of_nat p - Z.of_nat (rows k / 2))", "(Z.of_nat y - Z.of_nat p + Z.of_nat (rows k / 2))", "C119", "convolution along the columns", "Apply")
m("filter2D", I, "(Z.of_nat x + Z.of_nat q - Z.of_nat (cols k / 2))", "(Z.of_nat x + Z.of_nat q - Z.of_nat ((cols k - 1) / 2))", "C119", "anchor left of the middle", "Apply")
m("resample_2D", I, "cv_resize a new_x new_y.", "cv_resize a new_y new_x.", "C119", "width and height exchanged", "Apply")
m("resample_2D", I, "let* new_x := xint_round qx in", "let* new_x := xint qx in", "C119", "width truncated", "Apply")
m("apply_otf_to_image", I, "resample_2D (join kr ki) blur dx (Fin ifov)", "resample_2D (join kr ki) ref_img dx (Fin ifov)", "C119", "picture resampled without blur", "Apply")
m("apply_otf_to_image", I, "resample_2D (join kr ki) psf dx (Fin ifov)", "Ok psf", "C119", "point spread function returned at the scene's pixel size", "Apply")
m("apply_otf_to_image", I, "(xmul (Fin 2) (xatan h))", "(xatan h)", "C119", "half the pixel angle", "Apply")
m("apply_otf_to_image", I, "(xmul (Fin 2) (xatan h))", "(xmul (Fin 2) h)", "C119", "small angle for the kernel", "Apply")
m("apply_otf_to_image", I, "Ok (sim, sim_psf).", "Ok (sim_psf, sim).", "C119", "results exchanged", "Apply")
# C120
m("simulate_rest", "Sim", "apply_otf_to_image true_img (sr_gsd r)", "apply_otf_to_image (sr_img r) (sr_gsd r)", "C120", "the reference image is blurred", "Whole")
m("simulate_rest", "Sim", "Ok (true_img, blur_img, noisy_img).", "Ok (blur_img, true_img, noisy_img).", "C120", "results exchanged", "Whole")
m("simulate_rest", "Sim", "add_noise d (g_noise_of s) blur_img", "add_noise d (g_noise_of s) true_img", "C120", "noise added to the sharp picture", "Whole")
m("simulate_rest", "Sim", "pydiv ((s_px s + s_py s) / 2) (s_f s)", "pydiv (s_px s) (s_f s)", "C120", "pitch along x only", "Whole")
m("simulate_otf", "Sim", "let u := freqs_sim (-1) 1 cutoff in", "let u := freqs_sim (-1) 1 (cutoff / 2) in", "C120", "half the horizontal frequencies", "Whole")
m("simulate_otf", "Sim", "let* (wl, w) := positive_weights wavelengths weights in", "let* (wl, w) := positive_weights wavelengths (rev weights) in", "C120", "weights in the wrong order", "Whole")
m("simulate_otf", "Sim", "wl w (slant_flat c) (s_int_time s) in", "wl w (altitude c) (s_int_time s) in", "C120", "turbulence along the vertical path", "Whole")
m("simulate_otf", "Sim", "wl w (slant_flat c) (s_int_time s) in", "wl w (slant_flat c) 1 in", "C120", "drift and turbulence for one second", "Whole")
m("slant_flat", "Sim", "sqrt (altitude c * altitude c + ground_range c * ground_range c)", "altitude c + ground_range c", "C120", "altitude plus ground range", "Whole")
m("g_noise_of", "Sim", "Fin (s_read s * s_read s)", "Fin (s_read s)", "C120", "read noise not squared", "Whole")
m("add_noise", "Sim", "INR (d_count d (px a i j) i j)", "INR (d_count d (px a 0%nat 0%nat) i j)", "C120", "one rate for all pixels", "Whole")
