(** * Model_F64Slice: the sample positions of slice_otf in binary64
    (otf/functional.py 1174-1176).  The exact-arithmetic model is slice_otf in
    Model_Img; here only the positions are computed, not the interpolation. *)
From Coq Require Import ZArith Floats.
From Verif Require Import Base_XR Model_F64 Model_F64Size.
Open Scope float_scope.

(* numpy's length of arange: ceil of (stop - start) / step, none if that is not positive *)
Definition f_ceil (x : float) : res Z :=
  match Prim2SF x with
  | S754_zero _ => Ok 0%Z
  | S754_infinity _ => Err ValueError
  | S754_nan => Err ValueError
  | S754_finite s m e => Ok (- ((- sf_num (sf_signed s m) e) / sf_den e))%Z
  end.
Definition arange_len (start stop step : float) : res Z :=
  let* c := f_ceil ((stop - start) / step) in Ok (Z.max 0 c).

(* otf/functional.py:1174  entry i of np.linspace(-1.0, 1.0, n): i * (2 / (n - 1)) + (-1),
   the last entry replaced by 1 *)
Definition slice_u_f64 (n i : Z) : float :=
  if Z.eqb i (n - 1) then 1 else f_of_Z i * ((1 - (-1)) / f_of_Z (n - 1)) + (-1).
(* otf/functional.py:1176  u[1] - u[0] *)
Definition slice_step_f64 (n : Z) : float := slice_u_f64 n 1 - slice_u_f64 n 0.
(* otf/functional.py:1176  r = np.arange(0.0, 1.0, u[1] - u[0]): its length (the IndexError of
   u[1] for n < 2 as in Model_Img) and its entry i, start + i * step *)
Definition slice_count_f64 (n : Z) : res Z :=
  if Z.ltb n 2 then Err IndexError else arange_len 0 1 (slice_step_f64 n).
Definition slice_radius_f64 (n i : Z) : float := 0 + f_of_Z i * slice_step_f64 n.
