# wrong programs in definitions that no earlier edit touched, and wrong library contracts
M = []
def m(definition, old, new, claim, file, targets):
    M.append(dict(definition=definition, file=file, old=old, new=new, claim=claim, targets=list(targets)))
m("poke_atm", "if Nat.eqb i' i && Nat.eqb j' j then v", "if Nat.eqb i' i then v", "C16: whole row overwritten", "Model_Scenario", ("Prop_Scenario",))
m("max_f64", "if PrimFloat.ltb m y then y else m", "if PrimFloat.ltb m y then m else y", "C118: smallest instead of largest", "Model_F64Db", ("Prop_F64Db", "Prop_F64Band"))
m("max_f64", "1.7976931348623157e308", "1e308", "C125: other largest number", "Model_F64Aperture", ("Prop_F64Aperture",))
m("ground_sample_distance", "R := slant_range * ifov", "R := slant_range / ifov", "C93: divided by the field of view", "Model_Geo", ("Prop_Sim",))
m("cc", "cc : R := 299792458", "cc : R := 299792458 * 100", "C24: speed of light in centimetres", "Model_Rad", ("Prop_Rad",))
m("blackbody_radiance", "map (fun l => blackbody_radiance1 l T) lambda0", "map (fun l => blackbody_radiance1 T l) lambda0", "C24: arguments swapped", "Model_Rad", ("Prop_Rad",))
N = "Base_Np"
m("np_round", "Z := ZnearestE x", "Z := ZnearestA x", "C72: half away from zero", N, ("Prop_Img",))
m("py_int", "Z := Ztrunc x", "Z := Zfloor x", "C69: floor instead of truncation", N, ("Prop_Img",))
m("insert_by", "if Rleb (fst p) (fst q) then p :: l else q :: insert_by p l'", "if Rltb (fst p) (fst q) then p :: l else q :: insert_by p l'", "C87: equal keys in reverse order", N, ("Prop_Sim",))
m("interp_scan", "[] => if Rltb x0 x then right else y0", "[] => if Rltb x0 x then y0 else y0", "C27: end value held beyond the table", N, ("Prop_Rad",))
m("interp_tab", "if Rltb x x0 then left else", "if Rltb x x0 then y0 else", "C27: first value held before the table", N, ("Prop_Rad",))
m("linspace", "(b - a) / INR (n - 1)", "(b - a) / INR n", "C38: end point left out", N, ("Prop_Rad",))
