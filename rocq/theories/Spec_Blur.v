(** * Spec_Blur: interpolation by tents, mirrored pictures, convolution.
    Mentions no model function. *)
From Coq Require Import Reals ZArith List.
From Verif Require Import Spec_Img.
Open Scope R_scope.

(* the tent of half width one: the weight bilinear interpolation gives a sample
   at distance d *)
Definition tent (d : R) : R := Rmax 0 (1 - Rabs d).
(* where output pixel x of m lies among n input pixels when both rows of pixels
   cover the same interval; held inside the outermost sample points *)
Definition pixel_position (n m x : nat) : R :=
  Rmax 0 (Rmin (INR n - 1) ((INR x + / 2) * INR n / INR m - / 2)).
Definition interpolated (n m : nat) (f : nat -> nat -> R) (y x : R) : R :=
  sum_over n m (fun p q => tent (y - INR p) * tent (x - INR q) * f p q).

(* e continues the n x m picture f over the whole plane by reflection in the
   outermost rows and columns *)
Definition mirrored (n m : nat) (f : nat -> nat -> R) (e : Z -> Z -> R) : Prop :=
  (forall i j, (i < n)%nat -> (j < m)%nat -> e (Z.of_nat i) (Z.of_nat j) = f i j)
  /\ (forall i j, e (- i)%Z j = e i j) /\ (forall i j, e i (- j)%Z = e i j)
  /\ (forall i j, e (2 * (Z.of_nat n - 1) - i)%Z j = e i j)
  /\ (forall i j, e i (2 * (Z.of_nat m - 1) - j)%Z = e i j).

(* convolution and correlation of the plane e with an n x m kernel k whose
   origin is its pixel (n/2, m/2) *)
Definition convolution (n m : nat) (k : nat -> nat -> R) (e : Z -> Z -> R) (y x : Z) : R :=
  sum_over n m (fun p q => k p q *
    e (y - (Z.of_nat p - Z.of_nat (n / 2)))%Z (x - (Z.of_nat q - Z.of_nat (m / 2)))%Z).
Definition correlation (n m : nat) (k : nat -> nat -> R) (e : Z -> Z -> R) (y x : Z) : R :=
  sum_over n m (fun p q => k p q *
    e (y + (Z.of_nat p - Z.of_nat (n / 2)))%Z (x + (Z.of_nat q - Z.of_nat (m / 2)))%Z).

(* transfer function exp (-2 pi i (u s + v t)) of a system that only displaces
   the picture by s rows and t columns, at entry (p, q) of an n x n array *)
Definition moved_phase (n : nat) (s t : Z) (p q : nat) : R :=
  2 * PI * ((INR p - ctr n) * IZR s + (INR q - ctr n) * IZR t) / INR n.
