(** * Model_F64Aperture: circular_aperture_OTF in binary64 (otf/functional.py 110-182).
    numpy's arccos, sin, tan and arctan are parameters; the rest is computed with
    the roundings of the hardware.  The exact-arithmetic model is in Model_Otf. *)
From Coq Require Import ZArith Floats.
From Verif Require Import Base_XR Model_F64 Model_F64Size Model_F64Db.
Open Scope float_scope.

(* np.pi *)
Definition pi_f64 : float := 3.141592653589793.
(* np.nan_to_num *)
Definition max_f64 : float := 1.7976931348623157e308.
Definition nan_to_num_f64 (x : float) : float :=
  if negb (x =? x) then 0 else if x =? infinity then max_f64 else if x =? neg_infinity then - max_f64 else x.
(* a comparison used as a number *)
Definition bool_f64 (b : bool) : float := if b then 1 else 0.

(* otf/functional.py:144-145  radial frequency and cutoff; x**2.0 is x*x *)
Definition rho_f64 (u v : float) : float := PrimFloat.sqrt (u * u + v * v).
(* otf/functional.py:148-151 and 154-158: the overlap of two discs *)
Definition disc_f64 (facos : float -> float) (x : float) : float := facos x - x * PrimFloat.sqrt (1 - x * x).
(* otf/functional.py:161  rho < (1.0 - eta) * r0 / 2.0 *)
Definition inner_f64 (rho r0 eta : float) : bool := rho <? (1 - eta) * r0 / 2.
(* otf/functional.py:164  the argument of arccos *)
Definition ring_arg_f64 (rho r0 eta : float) : float :=
  let y := 2 * rho / r0 in (1 + eta * eta - y * y) / 2 / eta.
(* otf/functional.py:164-174 *)
Definition ring_f64 (facos fsin ftan fatan : float -> float) (rho r0 eta : float) : float :=
  let phi := facos (ring_arg_f64 rho r0 eta) in
  let c_2 := 2 * eta * fsin phi / pi_f64 + (1 + eta * eta) * phi / pi_f64 - 2 * (eta * eta) in
  let c_2 := c_2 - (2 * (1 - eta * eta) / pi_f64) * fatan ((1 + eta) * ftan (phi / 2) / (1 - eta)) in
  nan_to_num_f64 c_2 * bool_f64 (rho <=? (1 + eta) * r0 / 2).
(* otf/functional.py:110-182 *)
Definition circular_aperture_f64 (facos fsin ftan fatan : float -> float) (u v lambda0 D eta : float) : res float :=
  if lambda0 =? 0 then Err ZeroDivisionError else
  let rho := rho_f64 u v in
  let r0 := D / lambda0 in
  let a := nan_to_num_f64 ((2 / pi_f64) * disc_f64 facos (rho / r0)) in
  let b := nan_to_num_f64 ((2 * (eta * eta) / pi_f64) * disc_f64 facos (rho / eta / r0)) in
  let c_1 := - 2 * (eta * eta) * bool_f64 (inner_f64 rho r0 eta) in
  let c_2 := ring_f64 facos fsin ftan fatan rho r0 eta in
  if 0 <? eta then Ok ((a + b + c_1 + c_2) / (1 - eta * eta)) else Ok a.

(* metrics/functional.py:388-389 and simulation/functional.py:210-211: entry i of
   np.linspace(-1.0, 1.0, n) * cutoff and of np.linspace(1.0, -1.0, n) * cutoff *)
Definition u_rng_f64 (n i : nat) (cutoff : float) : float := linspace_f64 (-1) 1 n i * cutoff.
Definition v_rng_f64 (n i : nat) (cutoff : float) : float := linspace_f64 1 (-1) n i * cutoff.
(* metrics/functional.py:387-391 and simulation/functional.py:208-214: the aperture OTF of the shortest
   wavelength of the band in row and column of the n x n frequency grid *)
Definition grid_aperture_f64 (facos fsin ftan fatan : float -> float) (n row col : nat) (lambda0 D eta : float) : res float :=
  let cutoff := D / lambda0 in
  circular_aperture_f64 facos fsin ftan fatan (u_rng_f64 n col cutoff) (v_rng_f64 n row cutoff) lambda0 D eta.
