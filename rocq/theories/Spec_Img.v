(** * Spec_Img: centred inverse Fourier transform and image vocabulary,
    written independently of the model's shifts. *)
From Coq Require Import Reals List ZArith.
From Verif Require Import Base_Np.
Import ListNotations.
Open Scope R_scope.

Definition sum_over (n m : nat) (f : nat -> nat -> R) : R :=
  Rsum (map (fun p => Rsum (map (f p) (seq 0 m))) (seq 0 n)).

(* index of the zero-frequency sample / of the image centre on an axis *)
Definition ctr (n : nat) : R := INR (n / 2).

(* Real part of the inverse transform of a spectrum X + iY whose entry (p, q)
   holds frequency (p - a, q - b) in cycles per frame, evaluated i - ctr n rows
   and j - ctr m columns from the image centre. *)
Definition inverse_ft (n m : nat) (a b : R) (X Y : nat -> nat -> R) (i j : nat) : R :=
  sum_over n m (fun p q =>
    let ph := 2 * PI * ((INR p - a) * (INR i - ctr n) / INR n + (INR q - b) * (INR j - ctr m) / INR m) in
    (X p q * cos ph - Y p q * sin ph) / (INR n * INR m)).

(* nearest integer, halves to the even neighbour *)
Definition half_even (q : R) (n : Z) : Prop :=
  Rabs (IZR n - q) <= / 2 /\ (Rabs (IZR n - q) = / 2 -> Z.even n = true).
