(** * Proof_Percentile: np.percentile as linear interpolation between order statistics *)
From Coq Require Import Reals Lra List Lia ZArith Sorted Permutation Psatz.
From Flocq Require Import Core.Raux.
From Verif Require Import Base_XR Base_Np Base_Percentile.
Import ListNotations.
Open Scope R_scope.

Lemma sorted_unique : forall l l', StronglySorted Rle l -> StronglySorted Rle l' -> Permutation l l' -> l = l'.
Proof.
  induction l as [|x l IH]; intros l' H H' P.
  - symmetry. now apply Permutation_nil.
  - destruct l' as [|y l']; [now apply Permutation_sym, Permutation_nil in P|].
    inversion H as [|? ? S F]. inversion H' as [|? ? S' F']. subst.
    rewrite Forall_forall in F, F'.
    assert (E : x = y).
    { assert (A : x <= y).
      { destruct (Permutation_in y (Permutation_sym P) (or_introl eq_refl)) as [<-|I]; [lra|now apply F]. }
      assert (B : y <= x).
      { destruct (Permutation_in x P (or_introl eq_refl)) as [<-|I]; [lra|now apply F']. }
      lra. }
    subst y. f_equal. apply IH; auto. now apply Permutation_cons_inv in P.
Qed.

Lemma percentile_linear l q s k : 0 <= q <= 100 -> Permutation l s -> StronglySorted Rle s -> (k + 1 < length s)%nat ->
  INR k <= INR (length l - 1) * (q / 100) <= INR (k + 1) ->
  percentile l q = Ok (nth k s 0 + (INR (length l - 1) * (q / 100) - INR k) * (nth (k + 1) s 0 - nth k s 0)).
Proof.
  intros Hq P S K B. assert (Hl : l <> []).
  { intros ->. apply Permutation_nil in P. subst. simpl in K. lia. }
  rewrite percentile_ok by assumption.
  rewrite <- (sorted_unique s (sortR l) S (sortR_sorted l) (Permutation_trans (Permutation_sym P) (sortR_perm l))).
  set (h := INR (length l - 1) * (q / 100)) in *. f_equal.
  assert (L : length l = length s) by now apply Permutation_length.
  pose proof (virtual_index l q Hl Hq) as V. fold h in V. rewrite sortR_length, L in V.
  destruct (lerp_parts s h (proj1 V) (proj2 V)) as [K1 [_ [B1 E1]]].
  set (j := Z.to_nat (Zfloor h)) in *. rewrite E1.
  destruct (Nat.eq_dec j k) as [->|N].
  - rewrite (nth_indep s (nth k s 0) 0) by lia. ring.
  - assert (Hj : j = (k + 1)%nat).
    { assert ((k <= j)%nat). { apply Nat.lt_succ_r, INR_lt. rewrite S_INR. lra. }
      assert ((j <= k + 1)%nat). { apply INR_le. lra. } lia. }
    assert (Hh : h = INR (k + 1)).
    { rewrite Hj in B1. lra. }
    rewrite Hj, Hh, plus_INR. simpl (INR 1). ring.
Qed.

Lemma percentile_single x q : 0 <= q <= 100 -> percentile [x] q = Ok x.
Proof.
  intros Hq. rewrite percentile_ok by (auto; discriminate). simpl. f_equal. unfold lerp_at.
  replace (0 * (q / 100)) with 0 by ring. rewrite (Zfloor_IZR 0). simpl. ring.
Qed.
