# wrong programs against the exact kernels (C07) and the sampling errors (C131, C132)
M = []
def m(definition, old, new, claim, file, targets):
    M.append(dict(definition=definition, file=file, old=old, new=new, claim=claim, targets=list(targets)))
K = ("Model_F64", ("Prop_Kernel64",))
m("f_cent", "f_of_Z n / 100.", "f_of_Z n / 10.", "C07: quarters written as tenths", *K)
m("f_sum", "Definition f_sum (l : list float) : float := fold_left add l 0.", "Definition f_sum (l : list float) : float := fold_left add l 1.", "C07: sum of an exact kernel starts at one", *K)
m("noise_gain_f64", "Ok (sqrt (f_sum (map (fun k => k * k) kernel)))", "Ok (f_sum (map (fun k => k * k) kernel))", "C07: root of the gain missing", *K)
m("noise_gain_f64", "Ok (sqrt (f_sum (map (fun k => k * k) kernel)))", "Ok (sqrt (f_sum (map abs kernel)))", "C07: absolute values instead of squares", *K)
m("noise_gain_f64", "if negb (PrimFloat.eqb (f_sum kernel) 1) then Err ValueError", "if PrimFloat.ltb (f_sum kernel) 1 then Err ValueError", "C07: only sums below one rejected", *K)
m("f_of_Z", "| Zneg _ => - of_uint63 (Uint63.of_Z (Z.opp z))", "| Zneg _ => of_uint63 (Uint63.of_Z (Z.opp z))", "C07: sign of a literal lost", *K)
E = ("Model_Met", ("Prop_EdgeError",))
m("edge_response", "df * INR i + / 10 ^ 6", "df * INR i + / 10", "C131: frequencies shifted by a tenth", *E)
m("edge_response", "xadd (Fin 0.5) (xmul (Fin (1 / PI)) t)", "xadd (Fin 0.5) (xmul (Fin (1 / 3)) t)", "C131: pi taken as 3", *E)
m("edge_response", "let* t := trapz y (map Fin w) in\n  Ok (xadd (Fin 0.5)", "let t := xmul (Fin df) (xsum y) in\n  Ok (xadd (Fin 0.5)", "C131: rectangles instead of trapezoids", *E)
m("edge_response", "sin (2 * PI * w * ifov * pixel_pos)", "sin (PI * w * ifov * pixel_pos)", "C131: half the frequency", *E)
m("relative_edge_response", "edge_response (- 0.5) mtf_slice df ifov", "edge_response (- 0.4) mtf_slice df ifov", "C131: not symmetric about the edge", *E)
m("eho_positions", "1 + INR i * 0.25", "1 + INR i * 0.2", "C131: places a fifth of a pixel apart", *E)
m("edge_height_overshoot", "then Ok (nth 1 er NaN)", "then Ok (nth 2 er NaN)", "C131: rising edge read at 1.5 pixels", *E)
m("edge_height_overshoot", "else xmaxl er", "else xminl er", "C131: smallest response of a falling edge", *E)
