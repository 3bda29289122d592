(** * Num_PiF64: np.pi is a little below pi *)
From Coq Require Import Reals Lra.
From Interval Require Import Tactic.
From Verif Require Import Spec_F64Aperture.
Open Scope R_scope.
Lemma pi_below_near : / 9007199254740992 <= PI - pi_below <= / 4503599627370496.
Proof. unfold pi_below. split; interval with (i_prec 120). Qed.
