# wrong programs against the axes of the MTF chart (C106) and cameras that see nothing (C135)
M = []
def m(definition, old, new, claim, file, targets):
    M.append(dict(definition=definition, file=file, old=old, new=new, claim=claim, targets=list(targets)))
P = ("Model_Plot", ("Prop_Plot",))
m("r_max", "Ok (fold_left Rmax l x)", "Ok x", "C106: axis ends at the first value", *P)
m("common_MTFs_chart", "let* my := r_max fil in", "let* my := r_max sys in", "C106: axis ends at the largest value of the system curve", *P)
B = ("Model_Rad", ("Prop_Blind",))
m("first_of", "Definition first_of (l : list R) : res R := match l with [] => Err IndexError", "Definition first_of (l : list R) : res R := match l with [] => Err ValueError", "C135: other error for an empty table", *B)
m("py_maxx", "match l with [] => Err ValueError", "match l with [] => Err IndexError", "C135: other error for the largest of no weights", *B)
m("band", "Rleb (a_wl a) hi", "true", "C135: no upper end of the band", *B)
N = ("Model_Met", ("Prop_Blind",))
m("niirs", "  | Err e => (c, Err e)\n  | Ok atm =>\n      let (is_emissive, c') := bookkeeping s c in\n      (c', let* ct", "  | Err e => (snd (bookkeeping s c), Err e)\n  | Ok atm =>\n      let (is_emissive, c') := bookkeeping s c in\n      (c', let* ct", "C135: scenario written before the load", *N)
m("niirs5", "| Err e => (s, c', Err e)", "| Err e => (no_sharpening s, c', Err e)", "C135: kernel replaced before the exception", *N)
m("niirs5", "| Err e => (s, c', Err e)", "| Err e => (s, c, Err e)", "C135: scenario restored on an exception", *N)
m("bookkeeping", "set_plain BackgroundReflectance 0.07 (set_plain TargetReflectance 0.15 c)", "set_plain BackgroundReflectance 0.15 (set_plain TargetReflectance 0.07 c)", "C135: reflectances swapped", *N)
m("bookkeeping", "set_plain TargetTemperature 280 (set_plain TargetTemperature 282", "set_plain TargetTemperature 282 (set_plain TargetTemperature 280", "C135: temperatures written in the other order", *N)
m("positive_weights", "if Nat.eqb (length wl) (length w)", "if negb (Nat.eqb (length wl) 0)", "C135: other error for no wavelengths", *N)
S = ("Model_Sim", ("Prop_Blind",))
m("simulate_rest", "let* (ref, pe, (wavelengths, weights)) := reflectance_to_photoelectrons (atm_rows m) s (s_int_time s) 300 in\n  let* (otf, df) := simulate_otf diag s c wavelengths weights in\n  let* ifov := pydiv ((s_px s + s_py s) / 2) (s_f s) in", "let* ifov := pydiv ((s_px s + s_py s) / 2) (s_f s) in\n  let* (ref, pe, (wavelengths, weights)) := reflectance_to_photoelectrons (atm_rows m) s (s_int_time s) 300 in\n  let* (otf, df) := simulate_otf diag s c wavelengths weights in", "C135: division by the focal length first", *S)
