# wrong programs against the conditioning of GIQE 4 (C133)
M = []
def m(definition, old, new, claim, file, targets):
    M.append(dict(definition=definition, file=file, old=old, new=new, claim=claim, targets=list(targets)))
G = ("Model_Met", ("Prop_Conditioning",))
m("giqe4", "else (3.16, 2.817)", "else (3.16, 2.9)", "C133: larger coefficient of the edge response", *G)
m("giqe4", "then (3.32, 1.559) else", "then (3.5, 1.559) else", "C133: larger coefficient of the distance", *G)
m("giqe4", "if xle (Fin 0.9) rer", "if xle (Fin 0.8) rer", "C133: other threshold", *G)
m("giqe4", "(xmul (Fin 0.656) eho)", "(xmul (Fin 0.756) eho)", "C133: overshoot counted more", *G)
m("giqe4", "(xmul (Fin 0.334) ng)", "(xmul (Fin 0.434) ng)", "C133: gain counted more", *G)
