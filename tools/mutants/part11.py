# wrong programs against the Hufnagel-Valley 5/7 statements
M = []
def m(definition, old, new, claim, file="Model_Otf"):
    M.append(dict(definition=definition, file=file, old=old, new=new, claim="C124: " + claim, targets=["Prop_Fried"]))
H = "hufnagel_valley_turbulence_profile"
m(H, "5.94 / 10 ^ 53 * ((v / 27) * (v / 27))", "5.94 / 10 ^ 53 * (v / 27)", "wind not squared: the isoplanatic angle changes by a tenth")
m(H, "5.94 / 10 ^ 53 * ((v / 27)", "5.94 / 10 ^ 54 * ((v / 27)", "exponent of the first term")
m(H, "5.94 / 10 ^ 53 * ((v / 27)", "5.49 / 10 ^ 53 * ((v / 27)", "transposed digits")
m(H, "(xpown h 10))\n", "(xpown h 9))\n", "ninth power")
m(H, "(xexp (xdiv (xopp h) (Fin 1000)))", "(xexp (xdiv (xopp h) (Fin 1500)))", "height scale of the wind term")
m(H, "(xexp (xdiv (xopp h) (Fin 1500)))", "(xexp (xdiv (xopp h) (Fin 1000)))", "height scale of the second term")
m(H, "Fin (2.7 / 10 ^ 16)) (xexp", "Fin (2.7 / 10 ^ 17)) (xexp", "exponent of the second term")
m(H, "(xmul (Fin cn2_at_1m) (xexp (xdiv (xopp h) (Fin 100))))", "(xmul (Fin cn2_at_1m) (xexp (xdiv (xopp h) (Fin 1000))))", "height scale of the ground term")
m(H, "(xmul (Fin cn2_at_1m) (xexp (xdiv (xopp h) (Fin 100))))", "(Fin cn2_at_1m)", "ground strength at every height")
C = "coherence_diameter"
m(C, "xpow (xdiv z zm) (5 / 3)", "xpow (xdiv z zm) (8 / 3)", "power of the weight")
m(C, "xpow (xdiv z zm) (5 / 3)", "xpow (xsub (Fin 1) (xdiv z zm)) (5 / 3)", "weight from the other end: 5 cm from above and metres from below")
m(C, "bmap2 xmul cn2 (map (fun z => xpow (xdiv z zm) (5 / 3)) z_path)", "bmap2 xmul cn2 (map (fun z => Fin 1) z_path)", "plane wave: the 5 cm stay, the view from above is wrong")
m(C, "(Fin 0.423)", "(Fin 0.432)", "transposed digits in the constant: 4.9 cm")
m(C, "(Fin 0.423)", "(Fin 2.914)", "constant of the isoplanatic angle")
m(C, "(Fin (q * q))) (- (3 / 5))", "(Fin q)) (- (3 / 5))", "wave number not squared")
m(C, "let* q := pydiv (2 * PI) lambda0 in", "let* q := pydiv PI lambda0 in", "half the wave number")
m(C, "(- (3 / 5))", "(- (5 / 3))", "power upside down")
A = "altitude_along_slant_path"
m(A, "let h_path := rev (map (fun c => xsub c (Fin r_earth)) c) in", "let h_path := map (fun c => xsub c (Fin r_earth)) c in", "heights from the sensor, distances from the target", "Model_Geo")
m(A, "let z_path := map Fin b in", "let z_path := rev (map Fin b) in", "distances from the sensor", "Model_Geo")
m(A, "map (fun c => xsub c (Fin r_earth)) c", "c", "distance from the centre of the Earth instead of height", "Model_Geo")
m("n_path", "Definition n_path : nat := 10000.", "Definition n_path : nat := 100.", "a hundred samples: a kilometre and more apart, the ground layer is missed", "Model_Geo")
