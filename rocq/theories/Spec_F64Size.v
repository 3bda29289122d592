(** * Spec_F64Size: functions that come back one sample short *)
From Coq Require Import ZArith Floats.
From Verif Require Import Base_XR Model_F64 Model_F64Size.

(* an n x n function of frequency spacing k per radian, asked for at its own spacing, has n - 1 samples a side *)
Definition one_short (n : Z) (k : Z) : bool :=
  match psf_size_f64 n n (f_of_Z k) (psf_spacing_f64 n (f_of_Z k)) with Ok m => Z.eqb m (n - 1) | Err _ => false end.
