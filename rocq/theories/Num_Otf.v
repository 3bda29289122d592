(** * Num_Otf: numeric enclosures used by the transfer function properties. *)
From Coq Require Import Reals.
From Interval Require Import Tactic.
From Verif Require Import Base_XR Model_Otf Proof_Otf.
Open Scope R_scope.
Lemma exp_minus_pi : 0.0432 < exp (- PI) < 0.0433.
Proof. split; interval. Qed.
Lemma gaussian_cutoff bx by_ : bx <> 0 -> by_ <> 0 ->
  exists h, gaussian_OTF (1 / bx) 0 bx by_ = Ok (Fin h) /\ 0.0432 < h < 0.0433.
Proof.
  intros Hx Hy.
  destruct (gaussian_mtf (1 / bx) 0 (1 / bx) 0 bx by_ Hx Hy (Rle_refl _) (Rle_refl _))
    as (h & h' & E & _ & _ & _ & _ & _ & _ & _ & V).
  exists h. split; [exact E|]. rewrite (V eq_refl eq_refl). exact exp_minus_pi.
Qed.
