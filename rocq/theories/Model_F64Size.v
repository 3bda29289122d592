(** * Model_F64Size: array sizes computed in binary64 (otf/functional.py and
    simulation/ref_image.py).  Scalars are numpy float64 numbers. *)
From Coq Require Import ZArith Floats.
From Verif Require Import Base_XR Model_F64.
Open Scope float_scope.

(* an integer times a power of two, as numerator and denominator *)
Definition sf_num (m e : Z) : Z := match e with Zneg _ => m | _ => (m * 2 ^ e)%Z end.
Definition sf_den (e : Z) : Z := match e with Zneg p => (2 ^ Zpos p)%Z | _ => 1%Z end.
Definition sf_signed (s : bool) (m : positive) : Z := if s then Zneg m else Zpos m.
(* Python int(x): towards zero *)
Definition f_int (x : float) : res Z :=
  match Prim2SF x with
  | S754_zero _ => Ok 0%Z
  | S754_infinity _ => Err OverflowError
  | S754_nan => Err ValueError
  | S754_finite s m e => Ok (Z.quot (sf_num (sf_signed s m) e) (sf_den e))
  end.
(* int(np.round(x)): halves to the even neighbour *)
Definition z_round (n d : Z) : Z :=
  let q := (n / d)%Z in
  match Z.compare (2 * (n mod d)) d with
  | Lt => q
  | Gt => (q + 1)%Z
  | Eq => if Z.even q then q else (q + 1)%Z
  end.
Definition f_int_round (x : float) : res Z :=
  match Prim2SF x with
  | S754_zero _ => Ok 0%Z
  | S754_infinity _ => Err OverflowError
  | S754_nan => Err ValueError
  | S754_finite s m e => Ok (z_round (sf_num (sf_signed s m) e) (sf_den e))
  end.

(* otf/functional.py:937-941  otf_to_psf, one side of the resized function:
   dx_in = 1 / (otf.shape[0] * df); max([1, int(psf.shape[i] * dx_in / dx_out)]) *)
Definition psf_spacing_f64 (rows : Z) (df : float) : float := 1 / (f_of_Z rows * df).
Definition psf_size_f64 (rows side : Z) (df dx_out : float) : res Z :=
  let* x := f_int (f_of_Z side * psf_spacing_f64 rows df / dx_out) in Ok (Z.max 1 x).
(* otf/functional.py:1451-1452  resample_2D, one side: int(np.round(img_in.shape[i] * dx_in / dx_out)) *)
Definition resample_size_f64 (side : Z) (dx_in dx_out : float) : res Z :=
  f_int_round (f_of_Z side * dx_in / dx_out).

(* ref_image.py:100-104  pitch p and focal length f of the estimated camera *)
Definition capture_pitch_f64 : float := 20e-6.
Definition capture_focal_f64 (gsd altitude : float) : float := altitude * capture_pitch_f64 / gsd.
(* simulation/functional.py:200, 232, 250-252 with otf/functional.py:1291: one side of the
   pictures simulated with the estimated camera (p_y = p_x) and scenario (ground range 0) *)
Definition capture_size_f64 (side : Z) (gsd altitude : float) : res Z :=
  resample_size_f64 side (gsd / slant_flat_f64 altitude 0)
    ((capture_pitch_f64 + capture_pitch_f64) / 2 / capture_focal_f64 gsd altitude).
