# wrong programs against the conditioning of the ratings (C133), the columns of the atmosphere (C134) and sizes that are no numbers
M = []
def m(definition, old, new, claim, file, targets):
    M.append(dict(definition=definition, file=file, old=old, new=new, claim=claim, targets=list(targets)))
C = ("Model_Met", ("Prop_Columns",))
m("atm_rows", "a_trans := m i 1%nat", "a_trans := m i 2%nat", "C134: transmission from the wrong column", *C)
m("atm_rows", "a_path := m i 2%nat", "a_path := m i 3%nat", "C134: path radiance from the surface column", *C)
m("atm_rows", "a_scat := m i 4%nat", "a_scat := m i 5%nat", "C134: scattered sunlight from the ground column", *C)
m("atm_rows", "a_grnd := m i 5%nat", "a_grnd := m i 4%nat", "C134: ground reflection from the scatter column", *C)
m("atm_rows", "a_wl := m i 0%nat", "a_wl := m i 1%nat", "C134: wavelength from the transmission column", *C)
m("path_radiance", "Fin (a_path a + a_scat a)", "Fin (a_path a + a_surf a)", "C134: surface emission counted as haze", *C)
m("path_radiance", "Fin (a_path a + a_scat a)", "Fin (a_path a)", "C134: haze without scattered sunlight", *C)
R = ("Model_Rad", ("Prop_Columns",))
m("total_radiance1", "(Fin (a_scat a))", "(Fin (a_surf a))", "C134: surface emission instead of scattered sunlight", *R)
m("band", "Rleb (a_wl a) hi", "Rltb (a_wl a) hi", "C134: last wavelength left out", *R)
I = ("Model_Img", ("Prop_IntErrors",))
m("xint", "Ok (py_int r) | NaN => Err ValueError | _ => Err OverflowError", "Ok (py_int r) | NaN => Err OverflowError | _ => Err OverflowError", "C69: error of int(nan)", *I)
m("xint_round", "Ok (np_round r) | NaN => Err ValueError | _ => Err OverflowError", "Ok (np_round r) | NaN => Err OverflowError | _ => Err OverflowError", "C72: error of int(nan)", *I)
F = ("Model_F64Size", ("Prop_IntErrors",))
m("f_int_round", "  | S754_infinity _ => Err OverflowError\n  | S754_nan => Err ValueError\n  | S754_finite s m e => Ok (z_round", "  | S754_infinity _ => Err ValueError\n  | S754_nan => Err ValueError\n  | S754_finite s m e => Ok (z_round", "C115: error of int(inf)", *F)
m("f_int_round", "  | S754_nan => Err ValueError\n  | S754_finite s m e => Ok (z_round", "  | S754_nan => Ok 0%Z\n  | S754_finite s m e => Ok (z_round", "C115: int(nan) is 0", *F)
m("psf_spacing_f64", "1 / (f_of_Z rows * df)", "f_of_Z rows / df", "C115: spacing upside down", *F)
G = ("Model_Met", ("Prop_Conditioning",))
m("giqe3", "(xmul (Fin 1.48) eho)", "(xmul (Fin 1.58) eho)", "C133: overshoot counted more", *G)
m("giqe3", "(xmul (Fin 3.32) (xlog10 (xdiv rer", "(xmul (Fin 3.42) (xlog10 (xdiv rer", "C133: larger coefficient", *G)
m("giqe5", "(xmul (Fin 2) (xpown lr 4))", "(xmul (Fin 3) (xpown lr 4))", "C133: larger fourth power", *G)
m("giqe5", "(xdiv (Fin 1.8) snr)", "(xdiv (Fin 18) snr)", "C133: noise counted tenfold", *G)
m("giqe5", "(xsq (xmin rer_1 rer_2))", "(xsq (xmax rer_1 rer_2))", "C133: larger edge response squared", *G)
m("relative_edge_response", "edge_response (- 0.5) mtf_slice df ifov", "edge_response (- 0.6) mtf_slice df ifov", "C133: not symmetric about the edge", *G)
