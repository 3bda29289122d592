(** * Proof_F64Blend: one linear interpolation in binary64 *)
From Coq Require Import Reals ZArith Lia Lra Psatz Floats.
From Flocq Require Import Core IEEE754.BinarySingleNaN IEEE754.PrimFloat.
From Verif Require Import Model_F64 Spec_F64 Proof_Round Proof_F64Size.
Open Scope R_scope.

Definition eps : R := bpow radix2 (-53).
Lemma eps_val : 0 < eps <= / 1000000000.
Proof. unfold eps. simpl. lra. Qed.
Lemma rnd_le a b : a <= b -> rnd a <= rnd b.
Proof. intros H. apply round_le; auto; apply fx_valid || apply valid_rnd_N. Qed.
Lemma rnd_0 : rnd 0 = 0.
Proof. unfold rnd. apply round_0. apply valid_rnd_N. Qed.
Lemma rnd_1 : rnd 1 = 1.
Proof. apply (rnd_int 1). lia. Qed.
Lemma rnd_abs x B : bpow radix2 (-1000) <= B -> Rabs x <= B -> Rabs (rnd x - x) <= B * eps.
Proof.
  intros N H. assert (P : 0 < B) by (generalize (bpow_gt_0 radix2 (-1000)); lra).
  destruct (mag radix2 B) as [p M]. specialize (M ltac:(lra)). rewrite Rabs_pos_eq in M by lra. simpl in M.
  assert (K : (-1000 < p)%Z). { apply (lt_bpow radix2). lra. }
  eapply Rle_trans; [apply rnd_err with (k := p); [lia|lra]|].
  replace (p - 54)%Z with ((p - 1) + -53)%Z by lia. rewrite bpow_plus. unfold eps. apply Rmult_le_compat_r; [apply bpow_ge_0|lra].
Qed.
(* what is at most half a unit above a power of two rounds to it *)
Lemma rnd_half k y : (0 <= k <= 900)%Z -> y <= bpow radix2 k * (1 + bpow radix2 (-54)) -> rnd y <= bpow radix2 k.
Proof.
  intros K H. apply round_N_le_midp; [apply fx_valid|apply generic_format_bpow; unfold fx, FLT_exp; lia|].
  rewrite succ_eq_pos by apply bpow_ge_0. rewrite ulp_bpow. unfold fx, FLT_exp.
  rewrite Z.max_l by lia. replace (k + 1 - 53)%Z with (k + -52)%Z by lia. rewrite bpow_plus.
  apply Rle_lt_trans with (1 := H). assert (0 < bpow radix2 k) by apply bpow_gt_0.
  assert (bpow radix2 (-52) = 4 * bpow radix2 (-54)) by (simpl; lra). assert (0 < bpow radix2 (-54)) by apply bpow_gt_0. nra.
Qed.
Lemma rnd_tie : rnd (1 - bpow radix2 (-54)) = 1.
Proof.
  assert (T : stands_for 0x1p-54 (bpow radix2 (-54))).
  { apply f_value; [vm_compute; reflexivity|].
    match goal with |- context [Prim2SF ?x] => let y := eval vm_compute in (Prim2SF x) in change (Prim2SF x) with y end.
    unfold SF2R, F2R. simpl. lra. }
  assert (U := f_sub _ _ _ _ f_one T ltac:(rewrite Rabs_pos_eq by (simpl; lra); apply Rlt_trans with (bpow radix2 1);
    [simpl; lra|apply bpow_lt; lia])).
  assert (E : (1 - 0x1p-54)%float = 1%float) by (vm_compute; reflexivity). rewrite E in U. destruct U as [_ <-]. apply f_one.
Qed.

Section One.
Variables (lo hi x : PrimFloat.float) (l h r : R).
Hypothesis (L : stands_for lo l) (H : stands_for hi h) (X : stands_for x r).
Hypothesis (E : rnd (h - l) = h - l) (D1 : 1 <= h - l) (D2 : h - l <= bpow radix2 500) (I : l <= r <= h).
Let q := (r - l) / (h - l).
Lemma share_bounds : 0 <= q <= 1.
Proof.
  unfold q. split; [apply Rmult_le_pos; [lra|]; left; apply Rinv_0_lt_compat; lra|].
  apply Rmult_le_reg_r with (h - l); [lra|]. unfold Rdiv. rewrite Rmult_assoc, Rinv_l by lra. lra.
Qed.
Lemma big500 y : Rabs y <= bpow radix2 500 -> Rabs y < bpow radix2 900.
Proof. intros Y. apply Rle_lt_trans with (1 := Y). apply bpow_lt. lia. Qed.
Lemma high_weight : exists t, stands_for ((x - lo) / (hi - lo))%float t /\ 0 <= t <= 1 /\ Rabs (t - q) <= 2 * eps.
Proof.
  assert (A := f_sub _ _ _ _ X L ltac:(apply big500; rewrite Rabs_pos_eq; lra)).
  assert (B := f_sub _ _ _ _ H L ltac:(apply big500; rewrite Rabs_pos_eq; lra)). rewrite E in B.
  assert (U : Rabs (rnd (r - l) - (r - l)) <= (h - l) * eps).
  { apply rnd_abs; [|rewrite Rabs_pos_eq; lra]. apply Rle_trans with 1; [|lra]. change 1 with (bpow radix2 0). apply bpow_le. lia. }
  assert (V : 0 <= rnd (r - l) <= h - l).
  { split; [rewrite <- rnd_0|rewrite <- E]; apply rnd_le; lra. }
  set (s := rnd (r - l)) in *. clearbody s. assert (W : 0 <= s / (h - l) <= 1).
  { split; [apply Rmult_le_pos; [lra|]; left; apply Rinv_0_lt_compat; lra|].
    apply Rmult_le_reg_r with (h - l); [lra|]. unfold Rdiv. rewrite Rmult_assoc, Rinv_l by lra. lra. }
  assert (C := f_div _ _ _ _ A B ltac:(lra) ltac:(apply big500; rewrite Rabs_pos_eq by lra; apply Rle_trans with 1; [lra|];
    change 1 with (bpow radix2 0); apply bpow_le; lia)).
  exists (rnd (s / (h - l))). split; [exact C|]. split.
  { split; [rewrite <- rnd_0|rewrite <- rnd_1]; apply rnd_le; lra. }
  assert (F : Rabs (rnd (s / (h - l)) - s / (h - l)) <= 1 * eps).
  { apply rnd_abs; [change 1 with (bpow radix2 0); apply bpow_le; lia|rewrite Rabs_pos_eq; lra]. }
  assert (G : Rabs (s / (h - l) - q) <= eps).
  { unfold q. replace (s / (h - l) - (r - l) / (h - l)) with ((s - (r - l)) / (h - l)) by (field; lra).
    unfold Rdiv. rewrite Rabs_mult, (Rabs_pos_eq (/ (h - l))) by (left; apply Rinv_0_lt_compat; lra).
    apply Rmult_le_reg_r with (h - l); [lra|]. rewrite Rmult_assoc, Rinv_l by lra. lra. }
  replace (rnd (s / (h - l)) - q) with ((rnd (s / (h - l)) - s / (h - l)) + (s / (h - l) - q)) by ring.
  eapply Rle_trans; [apply Rabs_triang|]. lra.
Qed.
(* the two weights: at most half a unit above one together *)
Lemma weights : exists u t, stands_for (1 - (x - lo) / (hi - lo))%float u /\ stands_for ((x - lo) / (hi - lo))%float t /\
  0 <= u <= 1 /\ 0 <= t <= 1 /\ u + t <= 1 + bpow radix2 (-54) /\ Rabs (t - q) <= 2 * eps /\ Rabs (u - (1 - q)) <= 3 * eps
  /\ rnd (u + t) = 1.
Proof.
  destruct high_weight as (t & T & Bt & Et).
  assert (U := f_sub _ _ _ _ f_one T ltac:(apply big500; rewrite Rabs_pos_eq by lra; apply Rle_trans with 1; [lra|];
    change 1 with (bpow radix2 0); apply bpow_le; lia)).
  exists (rnd (1 - t)), t. split; [exact U|]. split; [exact T|].
  assert (Bu : 0 <= rnd (1 - t) <= 1).
  { split; [rewrite <- rnd_0; apply rnd_le; lra|]. apply Rle_trans with (rnd 1); [apply rnd_le; lra|rewrite rnd_1; lra]. }
  split; [exact Bu|]. split; [exact Bt|].
  assert (S : Rabs (rnd (1 - t) - (1 - t)) <= bpow radix2 (-54)).
  { destruct (Req_dec t 0) as [->|N].
    - rewrite Rminus_0_r, rnd_1, Rminus_eq_0, Rabs_R0. apply bpow_ge_0.
    - apply (rnd_err (1 - t) 0); [lia|]. rewrite Rabs_pos_eq by lra. simpl. lra. }
  assert (e2 : bpow radix2 (-54) = / 2 * eps) by (unfold eps; simpl; lra).
  assert (Q := eps_val). apply Rabs_le_inv in S, Et.
  split; [lra|]. split; [apply Rabs_le; lra|]. split; [apply Rabs_le; lra|].
  apply Rle_antisym.
  - change 1 with (bpow radix2 0) at 2. apply rnd_half; [lia|]. simpl (bpow radix2 0). lra.
  - rewrite <- rnd_tie at 1. apply rnd_le. lra.
Qed.

Variables (fa fb : PrimFloat.float) (a b B : R).
Hypothesis (A : stands_for fa a) (A' : stands_for fb b) (Ba : 0 <= a <= B) (Bb : 0 <= b <= B).
Hypothesis (S1 : bpow radix2 (-900) <= B) (S2 : B <= bpow radix2 800).
Let mixed := ((1 - (x - lo) / (hi - lo)) * fa + (x - lo) / (hi - lo) * fb)%float.
Lemma mix_close : exists v, stands_for mixed v /\ 0 <= v /\ Rabs (v - ((1 - q) * a + q * b)) <= 9 * eps * B /\
  (forall k, (0 <= k <= 800)%Z -> B <= bpow radix2 k -> v <= bpow radix2 k).
Proof.
  destruct weights as (u & t & U & T & Bu & Bt & Ut & Et & Eu & _).
  assert (PB : 0 < B) by (generalize (bpow_gt_0 radix2 (-900)); lra).
  assert (Z900 : bpow radix2 (-1000) <= B) by (apply Rle_trans with (2 := S1); apply bpow_le; lia).
  assert (G800 : bpow radix2 800 * 4 < bpow radix2 900).
  { replace 900%Z with (800 + 100)%Z by lia. rewrite bpow_plus. apply Rmult_lt_compat_l; [apply bpow_gt_0|]. simpl. lra. }
  assert (ua : 0 <= u * a <= B) by nra. assert (tb : 0 <= t * b <= B) by nra.
  assert (C := f_mul _ _ _ _ U A ltac:(rewrite Rabs_pos_eq; lra)).
  assert (C' := f_mul _ _ _ _ T A' ltac:(rewrite Rabs_pos_eq; lra)).
  assert (Q := eps_val).
  assert (F : Rabs (rnd (u * a) - u * a) <= B * eps) by (apply rnd_abs; [exact Z900|rewrite Rabs_pos_eq; lra]).
  assert (F' : Rabs (rnd (t * b) - t * b) <= B * eps) by (apply rnd_abs; [exact Z900|rewrite Rabs_pos_eq; lra]).
  assert (N : 0 <= rnd (u * a)) by (rewrite <- rnd_0; apply rnd_le; lra).
  assert (N' : 0 <= rnd (t * b)) by (rewrite <- rnd_0; apply rnd_le; lra).
  assert (F2 := F). assert (F2' := F'). apply Rabs_le_inv in F2, F2'.
  assert (up : rnd (u * a) + rnd (t * b) <= B + B * (bpow radix2 (-54)) + 2 * (B * eps)) by nra.
  assert (e2 : bpow radix2 (-54) = / 2 * eps) by (unfold eps; simpl; lra).
  assert (Up : rnd (u * a) + rnd (t * b) <= 2 * B) by nra.
  assert (M := f_add _ _ _ _ C C' ltac:(rewrite Rabs_pos_eq; lra)). fold mixed in M.
  exists (rnd (rnd (u * a) + rnd (t * b))). split; [exact M|]. split; [rewrite <- rnd_0; apply rnd_le; lra|]. split.
  - assert (F3 : Rabs (rnd (rnd (u * a) + rnd (t * b)) - (rnd (u * a) + rnd (t * b))) <= 2 * B * eps).
    { apply rnd_abs; [lra|rewrite Rabs_pos_eq; lra]. }
    apply Rabs_le_inv in F3, Et, Eu.
    assert (X1 : Rabs ((u - (1 - q)) * a) <= 3 * eps * B).
    { rewrite Rabs_mult, (Rabs_pos_eq a) by lra. apply Rmult_le_compat; try lra; [apply Rabs_pos|apply Rabs_le; lra]. }
    assert (X2 : Rabs ((t - q) * b) <= 2 * eps * B).
    { rewrite Rabs_mult, (Rabs_pos_eq b) by lra. apply Rmult_le_compat; try lra; [apply Rabs_pos|apply Rabs_le; lra]. }
    apply Rabs_le_inv in X1, X2. apply Rabs_le. 
    set (v := rnd (rnd (u * a) + rnd (t * b))) in *. clearbody v. set (ca := rnd (u * a)) in *. set (cb := rnd (t * b)) in *. clearbody ca cb.
    clear - F2 F2' F3 X1 X2. split; lra.
  - intros k K HB. assert (P : 0 < bpow radix2 k) by apply bpow_gt_0.
    apply rnd_half; [lia|].
    assert (G1 : rnd (u * a) <= bpow radix2 k * u).
    { rewrite <- (rnd_scale _ _ k U) by lia. apply rnd_le. nra. }
    assert (G2 : rnd (t * b) <= bpow radix2 k * t).
    { rewrite <- (rnd_scale _ _ k T) by lia. apply rnd_le. nra. }
    nra.
Qed.
End One.
