# wrong programs against the obscured aperture in double precision
M = []
def m(definition, old, new, claim, file="Model_F64Aperture"):
    M.append(dict(definition=definition, file=file, old=old, new=new, claim="C123: " + claim, targets=["Prop_F64Aperture"]))
m("pi_f64", "3.141592653589793.", "3.14159265358979.", "pi with two digits less: still within 10^-4, only the size of c_2 at the edge changes")
m("pi_f64", "3.141592653589793.", "3.1416.", "pi with four decimals")
m("nan_to_num_f64", "if negb (x =? x) then 0 else", "if negb (x =? x) then 1 else", "nan becomes one")
m("nan_to_num_f64", "if negb (x =? x) then 0 else", "if x =? x then 0 else", "numbers become zero")
m("bool_f64", "if b then 1 else 0", "if b then 0 else 1", "comparison inverted")
m("rho_f64", "u * u + v * v", "u * u - v * v", "difference of squares")
m("rho_f64", "PrimFloat.sqrt (u * u + v * v)", "(u * u + v * v)", "no square root")
m("rho_f64", "PrimFloat.sqrt (u * u + v * v)", "PrimFloat.abs u + PrimFloat.abs v", "sum of magnitudes: right on the axes")
m("disc_f64", "facos x - x * PrimFloat.sqrt (1 - x * x)", "facos x + x * PrimFloat.sqrt (1 - x * x)", "sign of the triangle")
m("disc_f64", "facos x - x * PrimFloat.sqrt (1 - x * x)", "facos x - PrimFloat.sqrt (1 - x * x)", "triangle without its height")
m("inner_f64", "rho <? (1 - eta) * r0 / 2", "rho <=? (1 - eta) * r0 / 2", "boundary belongs to c_1 as well")
m("inner_f64", "rho <? (1 - eta) * r0 / 2", "rho <? (1 + eta) * r0 / 2", "wrong radius")
m("inner_f64", "rho <? (1 - eta) * r0 / 2", "rho <? (1 - eta) * r0", "twice the radius")
m("inner_f64", "rho <? (1 - eta) * r0 / 2", "2 * rho / r0 <? 1 - eta", "the test on the relative frequency: other points disagree")
m("ring_arg_f64", "(1 + eta * eta - y * y) / 2 / eta", "(1 - eta * eta - y * y) / 2 / eta", "sign of eta squared")
m("ring_arg_f64", "(1 + eta * eta - y * y) / 2 / eta", "(1 + eta * eta - y * y) / eta", "factor two missing")
m("ring_arg_f64", "(1 + eta * eta - y * y) / 2 / eta", "(1 + eta * eta - y * y) / (2 * eta)", "one rounding less: doubling is exact, the same number away from overflow")
m("ring_arg_f64", "let y := 2 * rho / r0 in", "let y := rho / r0 in", "radius instead of diameter")
m("ring_arg_f64", "let y := 2 * rho / r0 in", "let y := 2 * (rho / r0) in", "doubling after the division: the same number")
m("ring_f64", "let phi := facos (ring_arg_f64 rho r0 eta) in", "let x := ring_arg_f64 rho r0 eta in let phi := facos (if 1 <? x then 1 else x) in", "argument clipped to one (the obvious repair): the term is never lost but always counted twice inside")
m("ring_f64", "let phi := facos (ring_arg_f64 rho r0 eta) in", "let phi := facos (if inner_f64 rho r0 eta then 2 else if 1 <? ring_arg_f64 rho r0 eta then 1 else ring_arg_f64 rho r0 eta) in", "repaired program: no point is wrong")
m("ring_f64", "2 * eta * fsin phi / pi_f64 +", "2 * eta * fsin phi / pi_f64 -", "sign of the sine term")
m("ring_f64", "(1 + eta * eta) * phi / pi_f64", "(1 - eta * eta) * phi / pi_f64", "factor of the angle")
m("ring_f64", "phi / pi_f64 - 2 * (eta * eta) in", "phi / pi_f64 in", "constant left out of c_2")
m("ring_f64", "fatan ((1 + eta) * ftan (phi / 2) / (1 - eta))", "fatan ((1 - eta) * ftan (phi / 2) / (1 + eta))", "ratio upside down")
m("ring_f64", "fatan ((1 + eta) * ftan (phi / 2) / (1 - eta))", "fatan ((1 + eta) * ftan phi / (1 - eta))", "whole angle")
m("ring_f64", "c_2 - (2 * (1 - eta * eta) / pi_f64)", "c_2 + (2 * (1 - eta * eta) / pi_f64)", "sign of the arctangent")
m("ring_f64", "nan_to_num_f64 c_2 * bool_f64 (rho <=? (1 + eta) * r0 / 2)", "nan_to_num_f64 c_2", "no upper end: beyond it arccos is nan again or the term is the last value")
m("ring_f64", "rho <=? (1 + eta) * r0 / 2", "rho <=? (1 - eta) * r0 / 2", "wrong upper end")
m("circular_aperture_f64", "let r0 := D / lambda0 in\n  let a", "let r0 := lambda0 / D in\n  let a", "cutoff upside down")
m("circular_aperture_f64", "(2 / pi_f64) * disc_f64 facos (rho / r0)", "(1 / pi_f64) * disc_f64 facos (rho / r0)", "half the first term")
m("circular_aperture_f64", "disc_f64 facos (rho / eta / r0)", "disc_f64 facos (rho * eta / r0)", "small disc too large")
m("circular_aperture_f64", "(2 * (eta * eta) / pi_f64) * disc", "(2 * eta / pi_f64) * disc", "eta not squared")
m("circular_aperture_f64", "let c_1 := - 2 * (eta * eta)", "let c_1 := - (eta * eta)", "half of c_1")
m("circular_aperture_f64", "let c_1 := - 2 * (eta * eta)", "let c_1 := 2 * (eta * eta)", "sign of c_1")
m("circular_aperture_f64", "(a + b + c_1 + c_2) / (1 - eta * eta)", "(a + b + c_1 + c_2)", "not normalised")
m("circular_aperture_f64", "(a + b + c_1 + c_2) / (1 - eta * eta)", "(a + b + c_1) / (1 - eta * eta)", "c_2 forgotten")
m("circular_aperture_f64", "(a + b + c_1 + c_2) / (1 - eta * eta)", "(a + b + (if c_1 <? 0 then c_1 else c_2)) / (1 - eta * eta)", "c_2 only where c_1 is not counted: never twice, still lost")
m("circular_aperture_f64", "if 0 <? eta then", "if eta <? 0 then", "never obscured")
m("circular_aperture_f64", "if lambda0 =? 0 then", "if D =? 0 then", "zero wavelength not refused (outside the inputs considered)")
m("u_rng_f64", "linspace_f64 (-1) 1 n i * cutoff", "linspace_f64 (-1) 1 n i / 2 * cutoff", "half the frequency range")
m("v_rng_f64", "linspace_f64 1 (-1) n i * cutoff", "linspace_f64 (-1) 1 n i * cutoff", "rows bottom up")
m("u_rng_f64", "linspace_f64 (-1) 1 n i * cutoff", "linspace_f64 (-1) 1 (n + 1) i * cutoff", "one more column")
m("grid_aperture_f64", "let cutoff := D / lambda0 in", "let cutoff := 2 * D / lambda0 in", "twice the range")
m("grid_aperture_f64", "(u_rng_f64 n col cutoff) (v_rng_f64 n row cutoff)", "(u_rng_f64 n row cutoff) (v_rng_f64 n col cutoff)", "rows and columns exchanged")
m("grid_aperture_f64", "(v_rng_f64 n row cutoff) lambda0 D eta", "(v_rng_f64 n row cutoff) D lambda0 eta", "wavelength and diameter exchanged")
