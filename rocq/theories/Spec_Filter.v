(** * Spec_Filter: frequency response of a convolution kernel. *)
From Coq Require Import Reals List.
From Verif Require Import Base_Np.
Import ListNotations.
Open Scope R_scope.

(* kernel coefficients (row a, column b), zero outside the kernel; only the
   first 100 rows and columns count *)
Definition coef (k : list (list R)) (a b : nat) : R := nth b (nth a k []) 0.
Definition sum2 (f : nat -> nat -> R) : R :=
  Rsum (map (fun a => Rsum (map (f a) (seq 0 100))) (seq 0 100)).
(* magnitude of the response at x cycles per row and y cycles per column *)
Definition gain (k : list (list R)) (x y : R) : R :=
  let re := sum2 (fun a b => coef k a b * cos (2 * PI * (x * INR a + y * INR b))) in
  let im := sum2 (fun a b => coef k a b * sin (2 * PI * (x * INR a + y * INR b))) in
  sqrt (re * re + im * im).
