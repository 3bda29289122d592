(** * Spec_EdgeError: the blurred edge as an integral over frequencies (C131). *)
From Coq Require Import Reals List.
From Coquelicot Require Import Coquelicot.
Open Scope R_scope.

(* sin(2 pi k w) / w, continued to w = 0 *)
Definition wave (k w : R) : R := if Req_EM_T w 0 then 2 * PI * k else sin (2 * PI * k * w) / w.
(* image of a unit step, k radians from the edge, through the transfer function m that ends at the frequency W *)
Definition blurred_edge (m : R -> R) (W k e : R) : Prop :=
  exists J, is_RInt (fun w => m w * wave k w) 0 W J /\ e = 1 / 2 + J / PI.
(* m falls or rises by at most L over its whole range, and nowhere faster *)
Definition gentle (m : R -> R) (W L : R) : Prop :=
  forall a b, 0 <= a <= W -> 0 <= b <= W -> Rabs (m a - m b) <= L / W * Rabs (a - b).
Definition transfer (m : R -> R) (W : R) : Prop := (forall w, 0 <= w <= W -> Rabs (m w) <= 1) /\ m W = 0.
(* n samples from 0 on, the one at W left out *)
Definition samples (m : R -> R) (W : R) (n : nat) : list R := map (fun i => m (W / INR n * INR i)) (seq 0 n).
(* a is the largest phase, 2 pi W k; the last term comes from the shift by 1e-6 cycles per radian *)
Definition edge_error (a L W : R) (n : nat) : R :=
  ((a * L + a ^ 2 / 2) / (4 * INR n) + a * L / (2 * INR n ^ 2) + a ^ 2 / (2 * 10 ^ 6 * W)) / PI.
(* transfer function of a perfect unobscured lens that ends at the frequency W *)
Definition lens (W w : R) : R := if Rle_dec w W then 2 / PI * (acos (w / W) - w / W * sqrt (1 - w / W * (w / W))) else 0.
