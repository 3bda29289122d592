(** * Model_Noise: src/pybsm/noise.py, function by function. *)
From Coq Require Import Reals List.
From Verif Require Import Base_XR Base_Np.
Import ListNotations.
Open Scope R_scope.

(* noise.py:37-60  noise_gain
     if np.sum(kernel) != 1.0: raise ValueError
     ng = np.sqrt(np.sum(np.sum(kernel**2)))
   Simplified: the 1-D or 2-D kernel is the list of its entries (np.sum
   without an axis sums all of them; the outer np.sum acts on a scalar). *)
Definition noise_gain (kernel : list R) : res xr :=
  if negb (Reqb (Rsum kernel) 1) then Err ValueError
  else Ok (xsqrt (Fin (Rsum (map (fun k => k * k) kernel)))).

(* noise.py:63-84  quantization_noise
     sigma_q = pe_range / (np.sqrt(12) * (2.0**bit_depth - 1.0))
   np.sqrt makes the divisor a numpy float64: division by zero gives inf/nan. *)
Definition quantization_noise (pe_range bit_depth : R) : xr :=
  xdiv (Fin pe_range) (Fin (sqrt 12 * (Rpower 2 bit_depth - 1))).
