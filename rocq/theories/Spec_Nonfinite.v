(** * Spec_Nonfinite: what the warnings about infinite and undefined outputs speak of (C130). *)
From Coq Require Import Reals List.
From Verif Require Import Base_XR.
Import ListNotations.
Open Scope R_scope.

(* radial spatial frequency *)
Definition rho (u v : R) : R := sqrt (u * u + v * v).
(* every entry is not a number *)
Definition nans (l : list xr) : Prop := forall x, In x l -> x = NaN.
(* Fried's coherence diameter of a uniform path: the integral of c (z/L)^(5/3) over [0, L] is 3/8 c L *)
Definition uniform_r0 (lam c L : R) : R := Rpower (0.423 * (2 * PI / lam) ^ 2 * (c * (3 / 8 * L))) (- (3 / 5)).
