(** * Model_F64: binary64 versions of the two functions whose observable
    behaviour is decided by rounding.  Uses Coq's primitive binary64 floats
    (round to nearest even, as numpy). *)
From Coq Require Import List ZArith Floats.
From Verif Require Import Base_XR.
Import ListNotations.
Open Scope float_scope.

(* Python int -> float (exact for the small integers used here) *)
Definition f_of_Z (z : Z) : float :=
  match z with
  | Z0 => 0
  | Zpos _ => of_uint63 (Uint63.of_Z z)
  | Zneg _ => - of_uint63 (Uint63.of_Z (Z.opp z))
  end.

(* a decimal literal n/100 in Python source is the correctly rounded quotient *)
Definition f_cent (n : Z) : float := f_of_Z n / 100.

(* np.sum of fewer than 8 numbers: sequential additions starting from 0 *)
Definition f_sum (l : list float) : float := fold_left add l 0.

(* noise.py:37-60  noise_gain, in binary64, for kernels with < 8 entries *)
Definition noise_gain_f64 (kernel : list float) : res float :=
  if negb (PrimFloat.eqb (f_sum kernel) 1) then Err ValueError
  else Ok (sqrt (f_sum (map (fun k => k * k) kernel))).

(* radiance/functional.py:125-144  check_well_fill, in binary64
     scale_factor = 1.0
     if total_photoelectrons > max_fill: scale_factor = max_fill / total_photoelectrons *)
Definition check_well_fill_f64 (total max_fill : float) : float :=
  if PrimFloat.ltb max_fill total then max_fill / total else 1.

(** ** geospatial.py in binary64.  np.cos and np.arccos are parameters; x**2.0 is
    x*x, correctly rounded. *)
(* geospatial.py:38 *)
Definition r_earth_f64 : float := 6378164.

(* geospatial.py:134-155  curved_earth_slant_range *)
Definition slant_range_f64 (fcos : float -> float) (h_target h_sensor ground_range : float) : float :=
  let a := r_earth_f64 + h_sensor in
  let c := r_earth_f64 + h_target in
  let theta := ground_range / r_earth_f64 in
  sqrt (c * c + a * a - 2 * a * c * fcos theta).

(* geospatial.py:104-131  nadir_angle *)
Definition nadir_angle_f64 (facos : float -> float) (h_target h_sensor slant_range : float) : float :=
  let a := r_earth_f64 + h_sensor in
  let b := slant_range in
  let c := r_earth_f64 + h_target in
  facos (-1 * (c * c - a * a - b * b) / (2 * a * b)).

(* simulation/functional.py:200  slant_range = np.sqrt(altitude**2 + ground_range**2) *)
Definition slant_flat_f64 (altitude ground_range : float) : float :=
  sqrt (altitude * altitude + ground_range * ground_range).

(* metrics/functional.py:298 with 424, and 459 with 574: the nadir angle of niirs and niirs5 *)
Definition niirs_nadir_f64 (fcos facos : float -> float) (altitude ground_range : float) : float :=
  nadir_angle_f64 facos 0 altitude (slant_range_f64 fcos 0 altitude ground_range).
(* simulation/functional.py:200, 215-225 with otf/functional.py:678: the nadir angle behind the
   turbulence of simulate_image *)
Definition simulate_nadir_f64 (facos : float -> float) (altitude ground_range : float) : float :=
  nadir_angle_f64 facos 0 altitude (slant_flat_f64 altitude ground_range).
