# wrong programs in the small helpers that no earlier edit touched
M = []
def m(definition, old, new, claim, file, targets):
    M.append(dict(definition=definition, file=file, old=old, new=new, claim=claim, targets=list(targets)))
D = ("Model_Db", ("Prop_Db", "Prop_Horizon"))
m("blend", "lw * a i j + hw * b i j", "hw * a i j + lw * b i j", "C11: weights swapped", *D)
m("blend", "lw * a i j + hw * b i j", "lw * a i j + hw * a i j", "C15: upper table never used", *D)
m("np_arange", "start + INR i * step", "start + INR (S i) * step", "C14: grid shifted by one step", *D)
m("np_arange", "Z.to_nat (Zceil ((stop - start) / step))", "Z.to_nat (Zfloor ((stop - start) / step) + 1)", "C107: end point included", *D)
m("py_first", "match l with [] => Err IndexError | x :: _ => Ok x end.\n", "match l with [] => Err ValueError | x :: _ => Ok x end.\n", "C10: other error for an altitude without ranges", *D)
m("py_last", "[x] => Ok x | _ :: l => py_last l", "x :: _ => Ok x | _ :: l => py_last l", "C10: first instead of last", *D)
m("py_max", "Ok (fold_left Rmax l x)", "Ok (fold_left Rmin l x)", "C10: smallest instead of largest altitude", *D)
m("py_min", "Ok (fold_left Rmin l x)", "Ok x", "C10: first instead of smallest altitude", *D)
m("py_max", "match l with [] => Err ValueError | x :: l => Ok (fold_left Rmax l x) end", "match l with [] => Err IndexError | x :: l => Ok (fold_left Rmax l x) end", "C10: other error", *D)
m("n_wave", "Definition n_wave : nat := 1371.", "Definition n_wave : nat := 1370.", "C86: one wavelength fewer", "Model_Db", ("Prop_Db", "Prop_Met"))
m("row_index", "let '(i, _, _, _) := r in i.", "let '(_, _, _, i) := r in i.", "C09: haze taken for the file number", *D)
m("row_ihaze", "let '(_, _, _, h) := r in h.", "let '(h, _, _, _) := r in h.", "C09: file number taken for the haze", *D)

A = ("Model_Defaults", ("Prop_Defaults",))
m("lookup", "if slot_eqb s t then Some a else lookup s l", "match lookup s l with Some b => Some b | None => if slot_eqb s t then Some a else None end", "C125: last binding wins", *A)
m("slot_eqb", "| Interp, Interp => true", "| Interp, Interp => false", "C125: interp never bound", *A)
m("slot_eqb", "| Plain a, Plain b => attr_eqb a b", "| Plain a, Plain b => true", "C125: every attribute the same", *A)

m("f_cent", "f_of_Z n / 100", "f_of_Z n / 10", "C07: hundredths", "Model_F64", ("Prop_Noise",))
m("f_sum", "fold_left add l 0.", "fold_left add l 1.", "C07: sum starts at one", "Model_F64", ("Prop_Noise",))
m("niirs_nadir_f64", "(slant_range_f64 fcos 0 altitude ground_range).", "(slant_flat_f64 altitude ground_range).", "C110: flat earth in niirs", "Model_F64", ("Prop_Nadir",))
m("simulate_nadir_f64", "nadir_angle_f64 facos 0 altitude (slant_flat_f64 altitude ground_range).", "nadir_angle_f64 facos 0 altitude altitude.", "C110: ground range ignored", "Model_F64", ("Prop_Nadir",))
m("f_of_Z", "- of_uint63 (Uint63.of_Z (Z.opp z))", "of_uint63 (Uint63.of_Z (Z.opp z))", "C07: sign lost", "Model_F64", ("Prop_Noise", "Prop_F64Db"))
m("f_decimal", "f_of_Z n / f_of_Z d", "f_of_Z d / f_of_Z n", "C118: inverse decimals", "Model_F64Db", ("Prop_F64Db", "Prop_F64Band"))
m("first_f64", "match l with [] => Err IndexError | x :: _", "match l with [] => Err ValueError | x :: _", "C117: other error", "Model_F64Db", ("Prop_F64Db",))
S = ("Model_F64Size", ("Prop_Native", "Prop_Baseline"))
m("capture_pitch_f64", "20e-6", "10e-6", "C22: other pitch", *S)
m("f_int_round", "Definition f_int_round (x : float) : res Z :=\n  match Prim2SF x with\n  | S754_zero _ => Ok 0%Z\n  | S754_infinity _ => Err OverflowError", "Definition f_int_round (x : float) : res Z :=\n  match Prim2SF x with\n  | S754_zero _ => Ok 0%Z\n  | S754_infinity _ => Err ValueError", "C115: error of int(inf)", *S)
m("f_int_round", "S754_nan => Err ValueError\n  | S754_finite s m e => Ok (z_round", "S754_nan => Ok 0%Z\n  | S754_finite s m e => Ok (z_round", "C115: int(nan)", *S)
m("f_int_round", "Definition f_int_round (x : float) : res Z :=\n  match Prim2SF x with\n  | S754_zero _ => Ok 0%Z", "Definition f_int_round (x : float) : res Z :=\n  match Prim2SF x with\n  | S754_zero _ => Ok 1%Z", "C115: round(0.0)", *S)
m("sf_signed", "if s then Zneg m else Zpos m", "Zpos m", "C115: sign lost", *S)
m("sf_num", "| _ => (m * 2 ^ e)%Z end", "| _ => m end", "C115: exponent lost", *S)
m("sf_den", "(2 ^ Zpos p)%Z", "(2 ^ Zpos p + 1)%Z", "C115: denominator", *S)

I = ("Model_Img", ("Prop_Img",))
m("cell_of", "Nat.min (n - 2)", "Nat.min (n - 1)", "C66: cell outside the grid", *I)
m("cell_of", "Z.to_nat (Zfloor x)", "Z.to_nat (Zceil x)", "C66: next cell", *I)
m("iscale", "px a i j / c", "px a i j * c", "C68: multiplied by the sum", *I)
m("isum", "(seq 0 (cols a)))) (seq 0 (rows a)))", "(seq 0 (cols a)))) (seq 1 (rows a)))", "C68: first line not counted", *I)
m("join", "match k, k' with Py, Py => Py | _, _ => Np end", "match k, k' with Np, Np => Np | _, _ => Py end", "C72: Python floats win", "Model_Img", ("Prop_Img", "Prop_Sim", "Prop_Baseline"))
m("real_img", "im := fun _ _ => 0 |}", "im := px a |}", "C104: real picture made complex", *I)
m("xint", "Ok (py_int r) | NaN => Err ValueError | _ => Err OverflowError", "Ok (py_int r) | NaN => Err OverflowError | _ => Err OverflowError", "C96: error of int(nan)", "Model_Img", ("Prop_Img", "Prop_Sim", "Prop_Baseline"))
m("xint", "Ok (py_int r) | NaN => Err ValueError | _ => Err OverflowError", "Ok (py_int r) | NaN => Err ValueError | _ => Err ValueError", "C96: error of int(inf)", "Model_Img", ("Prop_Img", "Prop_Sim", "Prop_Baseline"))

T = ("Model_Met", ("Prop_Met", "Prop_Rating"))
m("finite", "Fin r => Ok r | _ => Err NonFinite", "Fin r => Ok r | _ => Ok 0", "C95: non-finite taken for zero", *T)
m("xabs", "Fin (Rabs r) | PInf", "Fin r | PInf", "C80: no absolute value", *T)
for a, b, why in (("a_trans := m i 1%nat", "a_trans := m i 2%nat", "transmission column"), ("a_path := m i 2%nat", "a_path := m i 3%nat", "path radiance column"),
                  ("a_scat := m i 4%nat", "a_scat := m i 5%nat", "scattered column"), ("a_grnd := m i 5%nat", "a_grnd := m i 4%nat", "ground radiance column"), ("a_wl := m i 0%nat", "a_wl := m i 1%nat", "wavelength column")):
    m("atm_rows", a, b, "C121: " + why, *T)

O = ("Model_Otf", ("Prop_System", "Prop_Reading"))
m("dft_re", "cos (2 * PI * (INR (j * a) + INR (k * b)) / INR n_filt", "cos (2 * PI * (INR (k * a) + INR (j * b)) / INR n_filt", "C52: axes swapped", *O)
m("dft_re", "cos (2 * PI * (INR (j", "cos (PI * (INR (j", "C52: half the frequency", *O)
m("n_filt", "Definition n_filt : nat := 100.", "Definition n_filt : nat := 64.", "C52: other transform length", *O)
m("kget", "nth b (nth a kernel []) 0.", "nth a (nth b kernel []) 0.", "C52: kernel transposed", *O)
m("kdiv", "Err ZeroDivisionError else Ok (xdiv a b)", "Ok (xdiv a b) else Ok (xdiv a b)", "C55: no error for a zero divisor", "Model_Otf", ("Prop_Otf", "Prop_Aper", "Prop_System"))
m("on_grid", "map (fun p => g (fst p) (snd p)) pts.", "map (fun p => g (snd p) (fst p)) pts.", "C64: axes swapped", "Model_Otf", ("Prop_System", "Prop_Wide"))
m("on_grid_res", "traverse (fun p => g (fst p) (snd p)) pts.", "traverse (fun p => g (snd p) (fst p)) pts.", "C64: axes swapped", "Model_Otf", ("Prop_System", "Prop_Wide"))
m("pymod", "IZR (Zfloor (x / m))", "IZR (Zceil (x / m))", "C52: remainder below zero", *O)
m("xjn", "PInf | NInf => Fin 0 |", "PInf | NInf => NaN |", "C45: Bessel function at infinity", "Model_Otf", ("Prop_Aper", "Prop_Defocus"))

P = ("Model_Plot", ("Prop_Plot",))
m("annotate", "Ok tt else Err AttributeError", "Ok tt else Err TypeError", "C106: other error", *P)
m("annotate", "then Ok tt else Err AttributeError", "then Ok tt else Ok tt", "C106: unknown keywords accepted", *P)
m("annotate_keywords", "[\"text\"; \"xy\";", "[\"text\"; \"s\"; \"xy\";", "C106: old keyword accepted", *P)
m("r_max", "Ok (fold_left Rmax l x)", "Ok x", "C105: first instead of largest", *P)
m("square", "nth (i * n + j) l 0", "nth (j * n + i) l 0", "C106: chart transposed", *P)

R = ("Model_Rad", ("Prop_Rad",))
m("py_maxx", "if xlt m y then y else m", "if xlt m y then m else y", "C30: smallest", *R)
m("py_maxx", "if xlt m y then y else m", "m", "C28: first entry", *R)
m("first_of", "Definition first_of (l : list R) : res R := match l with [] => Err IndexError", "Definition first_of (l : list R) : res R := match l with [] => Err ValueError", "C28: other error", *R)
m("last_of", "[x] => Ok x | _ :: l => last_of l", "x :: _ => Ok x | _ :: l => last_of l", "C28: first entry", *R)
m("db_reflectance", "db_reflectance : R := 0.15", "db_reflectance : R := 0.07", "C29: other reflectance of the database", *R)
m("total_radiance", "map (total_radiance1 reflectance T) atm.", "map (total_radiance1 T reflectance) atm.", "C29: arguments swapped", *R)

C = ("Model_Scenario", ("Prop_Scenario",))
m("set_nth", "| _ :: l, O => x :: l", "| y :: l, O => y :: l", "C101: assignment lost", *C)
m("upd_scen", "sc := s; heap := heap w; loads := loads w", "sc := s; heap := heap w; loads := S (loads w)", "C17: phantom load", *C)
m("upd_scen", "sc := s; heap := heap w; loads := loads w", "sc := sc w; heap := heap w; loads := loads w", "C101: update lost", *C)
N = ("Model_Session", ("Prop_Session",))
m("perform", "{| sensors := put (sensors st) i s; scenarios := put (scenarios st) j (upd_scen w c) |}, Rated5 r", "{| sensors := sensors st; scenarios := put (scenarios st) j (upd_scen w c) |}, Rated5 r", "C113: niirs5 leaves the sensor alone", *N)
m("perform", "{| sensors := sensors st; scenarios := put (scenarios st) j (upd_scen w c) |}, Rated r", "{| sensors := sensors st; scenarios := scenarios st |}, Rated r", "C113: niirs leaves the scenario alone", *N)
m("perform", "put (sensors st) i (g (sensors st i))", "put (sensors st) 0%nat (g (sensors st i))", "C113: another sensor edited", *N)
m("after", "fun st e => fst (perform ni it diag st e)", "fun st e => st", "C113: nothing happens", *N)
m("transcript", "(e, a) :: transcript ni it diag st' evs", "(e, a) :: transcript ni it diag st evs", "C113: effects forgotten", *N)
G = ("Model_Sim", ("Prop_Sim", "Prop_Whole"))
m("lam_max", "sqrt (2 ^ 63 - 1) * 10", "sqrt (2 ^ 63 - 1)", "C96: larger limit", *G)
m("lam_max", "(2 ^ 63 - 1) - sqrt", "(2 ^ 31 - 1) - sqrt", "C96: limit of 32-bit counts", *G)
m("xall", "forallb (fun i => forallb (fun j => P", "existsb (fun i => forallb (fun j => P", "C96: one good line is enough", *G)
