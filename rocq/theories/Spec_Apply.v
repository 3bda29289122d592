(** * Spec_Apply: the kernel and the pixels of apply_otf_to_image in closed form.
    Mentions no model function. *)
From Coq Require Import Reals ZArith List.
From Verif Require Import Spec_Img Spec_Blur.
Open Scope R_scope.

(* the position otf_to_psf takes for zero frequency on an axis of n samples:
   the middle one for even n, the one after it for odd n *)
Definition zero_index (n : nat) : R := INR (n - n / 2).
(* the point spread function of the n x m spectrum X + iY, brought to h x w samples *)
Definition spread (n m : nat) (X Y : nat -> nat -> R) (h w : nat) (i j : nat) : R :=
  interpolated n m (inverse_ft n m (zero_index n) (zero_index m) X Y) (pixel_position n h i) (pixel_position m w j).
(* the middle k of d samples, one more if that is needed to lie in the middle; from
   fewer than k samples the last ones: those from d/2 - k/2 on, counted from the end *)
Definition first_kept (d k : nat) : nat :=
  if Nat.leb k d then (d - k) / 2 else (3 * d - k) / 2.
Definition kept (d k : nat) : nat :=
  if Nat.leb k d then k + (d - k) mod 2 else d - (3 * d - k) / 2.
Definition window (h w k : nat) (f : nat -> nat -> R) (p q : nat) : R :=
  f (first_kept h k + p)%nat (first_kept w k + q)%nat.
Definition window_sum (h w k : nat) (f : nat -> nat -> R) : R := sum_over (kept h k) (kept w k) (window h w k f).
(* k is the first of 10, 15, 20, ... below b whose window holds more than 95 percent of f,
   or the last one below b *)
Definition crop (h w b : nat) (f : nat -> nat -> R) (k : nat) : Prop := exists t,
  k = (10 + 5 * t)%nat /\ (k < b)%nat
  /\ (forall t', (t' < t)%nat -> window_sum h w (10 + 5 * t') f / sum_over h w f <= 0.95)
  /\ (0.95 < window_sum h w k f / sum_over h w f \/ (b <= k + 5)%nat).
