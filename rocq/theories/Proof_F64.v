(** * Proof_F64: witnesses in binary64 *)
From Coq Require Import List ZArith Floats Permutation.
From Verif Require Import Base_XR Model_F64.
Import ListNotations.

(* the sharpening kernel -0.08, 1.16, -0.08 is rejected in every order *)
Lemma sharpen_rejected k :
  Permutation (map f_cent [-8; 116; -8]%Z) k -> noise_gain_f64 k = Err ValueError.
Proof.
  intros H. 
  assert (L : length k = 3%nat) by (now rewrite <- (Permutation_length H)).
  destruct k as [|a [|b [|c [|d k]]]]; try discriminate. clear L.
  simpl in H.
  assert (In (f_cent 116) [a;b;c]).
  { eapply Permutation_in; [exact H|]. simpl; auto. }
  simpl in H0. destruct H0 as [E|[E|[E|[]]]]; subst.
  - assert (P : Permutation [f_cent (-8); f_cent (-8)] [b; c]).
    { apply Permutation_cons_inv with (f_cent 116).
      eapply Permutation_trans; [|exact H]. apply perm_swap. }
    apply Permutation_length_2_inv in P. destruct P as [P|P]; inversion P; subst; vm_compute; reflexivity.
  - assert (P : Permutation [f_cent (-8); f_cent (-8)] [a; c]).
    { apply Permutation_cons_inv with (f_cent 116).
      eapply Permutation_trans; [|eapply Permutation_trans; [exact H|apply perm_swap]]. apply perm_swap. }
    apply Permutation_length_2_inv in P. destruct P as [P|P]; inversion P; subst; vm_compute; reflexivity.
  - assert (P : Permutation [f_cent (-8); f_cent (-8)] [a; b]).
    { apply Permutation_cons_inv with (f_cent 116).
      eapply Permutation_trans; [|eapply Permutation_trans; [exact H|]]; [apply perm_swap|].
      eapply Permutation_trans; [apply perm_skip, perm_swap|]. apply perm_swap. }
    apply Permutation_length_2_inv in P. destruct P as [P|P]; inversion P; subst; vm_compute; reflexivity.
Qed.

Lemma decimal_kernels_refuted :
  ~ (forall cents : list Z, (length cents < 8)%nat ->
       fold_right Z.add 0%Z cents = 100%Z ->
       noise_gain_f64 (map f_cent cents) <> Err ValueError).
Proof.
  intros H. apply (H [-8; 116; -8]%Z); [simpl; auto with arith|reflexivity|].
  apply sharpen_rejected. apply Permutation_refl.
Qed.

(* kernels whose entries are exact: accepted *)
Lemma exact_kernel_accepted : noise_gain_f64 (map f_cent [-25; 150; -25]%Z) = Ok (sqrt 2.375)%float.
Proof. vm_compute. reflexivity. Qed.

(* well fill: 25 photoelectrons, limit 7 *)
Lemma well_fill_overshoot :
  (PrimFloat.ltb (f_of_Z 7) (check_well_fill_f64 (f_of_Z 25) (f_of_Z 7) * f_of_Z 25))%float = true.
Proof. vm_compute. reflexivity. Qed.

Lemma well_fill_f64_refuted :
  ~ (forall total max_fill : float,
       PrimFloat.ltb 0 max_fill = true -> PrimFloat.ltb 0 total = true ->
       PrimFloat.ltb max_fill (check_well_fill_f64 total max_fill * total)%float = false).
Proof.
  intros H. specialize (H (f_of_Z 25) (f_of_Z 7)).
  rewrite well_fill_overshoot in H. discriminate H; vm_compute; reflexivity.
Qed.
