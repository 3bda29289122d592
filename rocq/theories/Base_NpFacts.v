(** * Base_NpFacts: facts about the array vocabulary of Base_Np *)
From Coq Require Import Reals Lra List Lia.
From Verif Require Import Base_XR Base_Np.
Import ListNotations.
Open Scope R_scope.

Lemma linspace_length a b n : length (linspace a b n) = n.
Proof. unfold linspace. now rewrite map_length, seq_length. Qed.

Lemma linspace_nth a b n i d : (i < n)%nat ->
  nth i (linspace a b n) d = a + INR i * ((b - a) / INR (n - 1)).
Proof.
  intros H. unfold linspace.
  rewrite nth_indep with (d' := a + INR 0 * ((b - a) / INR (n - 1))).
  2:{ now rewrite map_length, seq_length. }
  rewrite (map_nth (fun i => a + INR i * ((b - a) / INR (n - 1)))). rewrite seq_nth by auto.
  reflexivity.
Qed.

