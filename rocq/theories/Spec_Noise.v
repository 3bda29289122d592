(** * Spec_Noise: what a noise gain is, independent of the model.

    A finite sample space is a list of (probability, noise realisation); a
    realisation assigns a noise value to each pixel under the kernel. *)
From Coq Require Import Reals List.
Import ListNotations.
Open Scope R_scope.

Definition space := list (R * (nat -> R)).
Fixpoint expect (om : space) (f : (nat -> R) -> R) : R :=
  match om with
  | [] => 0
  | (p, x) :: om => p * f x + expect om f
  end.
(* pixel noise of standard deviation s, uncorrelated between pixels *)
Definition white (om : space) (n : nat) (s : R) : Prop :=
  forall i j, (i < n)%nat -> (j < n)%nat ->
    expect om (fun x => x i * x j) = if Nat.eqb i j then s * s else 0.
(* output of the filter with weights k started at pixel m *)
Fixpoint filtered (m : nat) (k : list R) (x : nat -> R) : R :=
  match k with
  | [] => 0
  | w :: k => w * x m + filtered (S m) k x
  end.
Fixpoint total (k : list R) : R := match k with [] => 0 | w :: k => w + total k end.
