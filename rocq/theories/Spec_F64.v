(** * Spec_F64: what a binary64 number stands for *)
From Coq Require Import Reals ZArith Floats.
From Flocq Require Import IEEE754.BinarySingleNaN IEEE754.PrimFloat.
From Verif Require Import Model_F64.
Open Scope R_scope.

(* x is a finite number and its value is r *)
Definition stands_for (x : float) (r : R) : Prop :=
  BinarySingleNaN.is_finite (Prim2B x) = true /\ B2R (Prim2B x) = r.

(* what is used of libm *)
Definition cosine_of_zero (fcos : float -> float) : Prop := fcos 0%float = 1%float.
Definition arccos_above_one (facos : float -> float) : Prop :=
  forall x, PrimFloat.ltb 1 x = true -> facos x = nan.
Definition arccos_of_one (facos : float -> float) : Prop := facos 1%float = 0%float.

(* the Python literals 0.1, 0.2, ...: m/10, correctly rounded; multiples of 500 feet in metres *)
Definition tenths (m : Z) : float := (f_of_Z m / 10)%float.
Definition feet500 (n : Z) : float := (f_of_Z (n * 1524) / 10)%float.
