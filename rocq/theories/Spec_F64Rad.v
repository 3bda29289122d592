(** * Spec_F64Rad: what is used of numpy's exp, power and sum, and the range of the inputs *)
From Coq Require Import Reals ZArith List Permutation Floats.
From Flocq Require Import Core IEEE754.BinarySingleNaN IEEE754.PrimFloat.
From Verif Require Import Model_Rad Model_F64Rad Spec_F64.
Import ListNotations.
Open Scope R_scope.

(* y is a number within the fraction e of r *)
Definition close (e : R) (y : PrimFloat.float) (r : R) : Prop := exists v, stands_for y v /\ Rabs (v - r) <= e * Rabs r.

(* np.exp is accurate to four units in the last place for arguments between 0 and 300; ** with the exponents 2, 5 and -1
   on positive numbers as long as the result is neither huge nor tiny *)
Definition good_exp (fexp : PrimFloat.float -> PrimFloat.float) : Prop :=
  forall x r, stands_for x r -> 0 <= r <= 300 -> close (/ 2 ^ 50) (fexp x) (exp r).
Definition good_pow (fpow : PrimFloat.float -> PrimFloat.float -> PrimFloat.float) : Prop :=
  (forall x r, stands_for x r -> / 10 ^ 40 <= r <= 10 ^ 40 -> close (/ 2 ^ 50) (fpow x 2%float) (r ^ 2)) /\
  (forall x r, stands_for x r -> / 10 ^ 40 <= r <= 10 ^ 40 -> close (/ 2 ^ 50) (fpow x 5%float) (r ^ 5)) /\
  (forall x r, stands_for x r -> 1 <= r <= 10 ^ 200 -> close (/ 2 ^ 50) (fpow x (-1)%float) (/ r)).

(* np.sum adds the numbers in some order with some bracketing, possibly starting from zero *)
Inductive tree := Zero | Leaf (x : PrimFloat.float) | Node (a b : tree).
Fixpoint tree_sum (t : tree) : PrimFloat.float :=
  match t with Zero => 0%float | Leaf x => x | Node a b => (tree_sum a + tree_sum b)%float end.
Fixpoint leaves (t : tree) : list PrimFloat.float :=
  match t with Zero => [] | Leaf x => [x] | Node a b => leaves a ++ leaves b end.
Fixpoint depth (t : tree) : nat :=
  match t with Zero => 0 | Leaf _ => 0 | Node a b => S (max (depth a) (depth b)) end.
Definition good_sum (fsum : list PrimFloat.float -> PrimFloat.float) : Prop :=
  forall l, exists t, fsum l = tree_sum t /\ Permutation (leaves t) l /\ (depth t <= length l)%nat.

(* zero or of ordinary size *)
Definition sized (x : PrimFloat.float) : Prop := exists r, stands_for x r /\ (r = 0 \/ / 10 ^ 12 <= r <= 10 ^ 12).
(* between 10^-8 and 10^8 *)
Definition length_like (x : PrimFloat.float) : Prop := exists r, stands_for x r /\ / 10 ^ 8 <= r <= 10 ^ 8.
(* the value of a finite number *)
Definition value (x : PrimFloat.float) : R := B2R (Prim2B x).
(* a wavelength between 0.1 and 100 micrometres *)
Definition optical (x : PrimFloat.float) : Prop := exists l, stands_for x l /\ / 10 ^ 7 <= l <= / 10 ^ 4.
(* a reflectance: between 0 and 1, not tiny unless 0 *)
Definition fraction (x : PrimFloat.float) : Prop := exists r, stands_for x r /\ (r = 0 \/ / 10 ^ 12 <= r <= 1).
(* wavelengths increase by at least a millionth of a micrometre *)
Fixpoint spaced (l : list PrimFloat.float) : Prop :=
  match l with
  | x :: ((y :: _) as r) => value x + / 10 ^ 12 <= value y /\ spaced r
  | _ => True
  end.
(* the values of a row *)
Definition row_of (a : arow_f64) : arow :=
  {| a_wl := value (f_wl a); a_trans := value (f_trans a); a_path := value (f_path a); a_surf := 0; a_scat := value (f_scat a); a_grnd := value (f_grnd a) |}.
Definition good_row (t : R) (a : arow_f64) : Prop :=
  optical (f_wl a) /\ 6 / 10 ^ 5 <= value (f_wl a) * t <= 19 / 10 ^ 3 /\ sized (f_trans a) /\ sized (f_path a) /\ sized (f_scat a) /\ sized (f_grnd a).
(* exp overflows above 710, and 1/infinity is zero *)
Definition exp_overflows (fexp : PrimFloat.float -> PrimFloat.float) : Prop :=
  forall x r, stands_for x r -> 710 <= r -> fexp x = infinity.
Definition pow_of_infinity (fpow : PrimFloat.float -> PrimFloat.float -> PrimFloat.float) : Prop := fpow infinity (-1)%float = 0%float.
