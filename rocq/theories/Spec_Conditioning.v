(** * Spec_Conditioning: numbers that agree up to a factor (C133). *)
From Coq Require Import Reals.
Open Scope R_scope.

(* x' lies between x / k and k x *)
Definition within (k x x' : R) : Prop := 1 <= k /\ x / k <= x' <= k * x.

(* share of the slope of a blurred edge that n samples up to W may cost: L bounds the slope of the transfer function over the band, a is
   the phase of half a pixel at W *)
Definition relative_share (a L W : R) (n : nat) : R := PI * L * ((L + a / 2) / (4 * INR n) + L / (2 * INR n ^ 2) + a / (2 * 10 ^ 6 * W)).
