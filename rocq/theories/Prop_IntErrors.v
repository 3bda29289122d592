(** * Prop_IntErrors: sizes that are no numbers (C69, C72, C74, C115) *)
From Coq Require Import Reals ZArith Lia Lra List Floats.
From Flocq Require Import Core IEEE754.BinarySingleNaN IEEE754.PrimFloat.
From Verif Require Import Base_XR Base_Np Model_Geo Model_Sensor Model_Rad Model_Otf Model_Img Model_F64 Model_F64Size Spec_F64 Spec_Img Proof_Round Proof_F64Size Proof_IntErrors.
Import ListNotations.
Open Scope R_scope.

(* numpy numbers: a frequency spacing of zero asks for an infinite function, a spacing that is nan for a size that is nan *)
Theorem C69_numpy_spacing : forall otf dx, (0 < crows otf)%nat -> (0 < ccols otf)%nat -> 0 < dx ->
  otf_to_psf otf Np 0 (Fin dx) = Err OverflowError /\ otf_to_psf otf Np 0 (Fin (- dx)) = Err OverflowError /\
  forall kd df, df <> 0 -> otf_to_psf otf kd df NaN = Err ValueError.
Proof. exact psf_numpy. Qed.
Print Assumptions C69_numpy_spacing.

Theorem C72_both_zero : forall a, resample_2D Np a (Fin 0) (Fin 0) = Err ValueError.
Proof. exact resample_nan. Qed.
Print Assumptions C72_both_zero.

(* a picture of points seen from no distance *)
Theorem C74_zero_gsd_zero_range : forall img otf kd df ki ifov, (0 < crows otf)%nat -> (0 < ccols otf)%nat -> df <> 0 ->
  apply_otf_to_image img 0 Np 0 otf kd df ki ifov = Err ValueError.
Proof. exact apply_nan. Qed.
Print Assumptions C74_zero_gsd_zero_range.

(* the same in binary64 *)
Theorem C115_zero_spacing_f64 : forall n d v, (1 <= n <= 2 ^ 40)%Z -> stands_for d v -> / 2 ^ 400 <= v <= 2 ^ 400 ->
  resample_size_f64 n d 0 = Err OverflowError /\ resample_size_f64 n 0 0 = Err ValueError /\
  (forall rows, (1 <= rows <= 2 ^ 40)%Z -> psf_size_f64 rows n d 0 = Err OverflowError /\ psf_size_f64 rows n 0 d = Err OverflowError).
Proof. exact sizes_by_zero. Qed.
Print Assumptions C115_zero_spacing_f64.

Example C69_example_numpy : otf_to_psf flat_otf Np 0 (Fin 0.001) = Err OverflowError /\ otf_to_psf flat_otf Np 3 NaN = Err ValueError.
Proof. destruct (C69_numpy_spacing flat_otf 0.001) as (A & _ & B); [cbn; lia | cbn; lia | lra|]. split; [exact A|]. apply B. lra. Qed.
Example C72_example_both_zero : resample_2D Np {| rows := 3; cols := 4; px := fun _ _ => 1 |} (Fin 0) (Fin 0) = Err ValueError.
Proof. apply C72_both_zero. Qed.
Example C74_example_zero : apply_otf_to_image {| rows := 3; cols := 4; px := fun _ _ => 1 |} 0 Np 0 flat_otf Np 1 Py 0.001 = Err ValueError.
Proof. apply C74_zero_gsd_zero_range; try lra; cbn; lia. Qed.
Example C115_example_zero : stands_for 1 1 /\ resample_size_f64 100 1 0 = Err OverflowError.
Proof. split; [exact f_one|]. vm_compute. reflexivity. Qed.
