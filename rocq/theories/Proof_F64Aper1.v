(** * Proof_F64Aper1: roundings in circular_aperture_OTF before the libm calls *)
From Coq Require Import Reals ZArith Lia Lra Psatz Floats.
From Flocq Require Import Core Relative IEEE754.BinarySingleNaN IEEE754.PrimFloat.
From Verif Require Import Base_XR Model_F64 Spec_F64 Spec_F64Aperture Proof_Round Model_F64Size Proof_F64Size Proof_F64Db Model_F64Aperture.
Open Scope R_scope.

(** ** one rounding *)
Lemma rnd_mix x : Rabs (rnd x - x) <= / 9007199254740992 * Rabs x + bpow radix2 (-1075).
Proof.
  destruct (error_N_FLT radix2 (-1074) 53 ltac:(reflexivity) (fun x => negb (Z.even x)) x) as (e & t & E & T & _ & Q).
  change (round radix2 (FLT_exp (-1074) 53) (Znearest (fun x => negb (Z.even x))) x) with (rnd x) in Q. rewrite Q.
  replace (x * (1 + e) + t - x) with (e * x + t) by ring. eapply Rle_trans; [apply Rabs_triang|]. rewrite Rabs_mult.
  apply Rplus_le_compat.
  - apply Rmult_le_compat_r; [apply Rabs_pos|]. eapply Rle_trans; [exact E|]. simpl. lra.
  - eapply Rle_trans; [exact T|]. replace (-1075)%Z with (-1 + -1074)%Z by reflexivity. rewrite bpow_plus. simpl (bpow radix2 (-1)). lra.
Qed.
(* below 2^k in size: absolute error *)
Lemma rnd_abs x k : (-1021 <= k)%Z -> Rabs x < bpow radix2 k -> rnd x - x <= bpow radix2 (k - 54) /\ - bpow radix2 (k - 54) <= rnd x - x.
Proof. intros K H. generalize (rnd_err x k K H). intros E. apply Rabs_le_inv in E. lra. Qed.
Lemma rnd_pos x : 0 <= x -> 0 <= rnd x.
Proof. intros H. rewrite <- (rnd_int 0) by lia. apply rnd_mono. exact H. Qed.
Lemma tiny_le k j : (k <= j)%Z -> bpow radix2 k <= bpow radix2 j. Proof. apply bpow_le. Qed.
Lemma sqrt_near a b e : 0 <= a -> 0 <= b -> 0 <= e -> a <= b + e -> R_sqrt.sqrt a <= R_sqrt.sqrt b + R_sqrt.sqrt e.
Proof.
  intros A B E H. apply Rsqr_incr_0_var; [|apply Rplus_le_le_0_compat; apply sqrt_pos]. unfold Rsqr.
  rewrite sqrt_sqrt by exact A. generalize (sqrt_sqrt b B) (sqrt_sqrt e E) (sqrt_pos b) (sqrt_pos e). intros. nra.
Qed.
Lemma pow_200 : 2 ^ 200 = bpow radix2 200. Proof. apply (pow2_bpow 200). Qed.
Lemma pow_200i : / 2 ^ 200 = bpow radix2 (-200). Proof. rewrite pow_200. change (-200)%Z with (- (200))%Z. now rewrite bpow_opp. Qed.

(** ** the radial frequency *)
Definition mu : R := / 9007199254740992. (* 2^-53 *)
Lemma sum_up m N t s d : 0 < m < / 1000 -> 0 <= N -> 0 < t -> d <= (1 + m) * N + 2 * t -> s - d <= m * d + t -> s <= (1 + 3 * m) * N + 4 * t.
Proof.
  intros M P T D S. assert (A : s <= (1 + m) * d + t) by lra.
  assert (B : (1 + m) * d <= (1 + m) * ((1 + m) * N + 2 * t)) by (apply Rmult_le_compat_l; lra).
  assert (C : m * (m * N) <= m * N) by (apply Rmult_le_compat_l; [lra|]; rewrite <- (Rmult_1_l N) at 2; apply Rmult_le_compat_r; lra).
  assert (E : m * t <= / 1000 * t) by (apply Rmult_le_compat_r; lra).
  replace ((1 + m) * ((1 + m) * N + 2 * t)) with (N + 2 * (m * N) + m * (m * N) + 2 * t + 2 * (m * t)) in B by ring. lra.
Qed.
Lemma sum_down m N t s d : 0 < m < / 1000 -> 0 <= N -> 0 < t -> (1 - m) * N - 2 * t <= d -> - (m * d + t) <= s - d -> (1 - 3 * m) * N <= s + 4 * t.
Proof.
  intros M P T D S. assert (A : (1 - m) * d - t <= s) by lra.
  assert (B : (1 - m) * ((1 - m) * N - 2 * t) <= (1 - m) * d) by (apply Rmult_le_compat_l; lra).
  assert (C : 0 <= m * (m * N)) by (apply Rmult_le_pos; [lra|]; apply Rmult_le_pos; lra).
  assert (C' : 0 <= m * N) by (apply Rmult_le_pos; lra). assert (E : 0 <= m * t) by (apply Rmult_le_pos; lra).
  replace ((1 - m) * ((1 - m) * N - 2 * t)) with (N - 2 * (m * N) + m * (m * N) - 2 * t + 2 * (m * t)) in B by ring. lra.
Qed.
Lemma last_step m r z t q p : 0 < m < / 1000 -> 0 <= r -> 0 < z -> t <= z -> 0 <= q -> q <= (1 + 3 * m) * r + z -> (1 - 3 * m) * r <= q + z ->
  - (m * q + t) <= p - q <= m * q + t -> - (5 * m * r + 8 * z) <= p - r <= 5 * m * r + 8 * z.
Proof.
  intros M P Z T Q A B E. assert (C : m * q <= m * ((1 + 3 * m) * r + z)) by (apply Rmult_le_compat_l; lra).
  assert (D : m * (m * r) <= / 1000 * (m * r)) by (apply Rmult_le_compat_r; [apply Rmult_le_pos; lra|lra]).
  assert (F : m * z <= / 1000 * z) by (apply Rmult_le_compat_r; lra). assert (G : 0 <= m * r) by (apply Rmult_le_pos; lra).
  replace (m * ((1 + 3 * m) * r + z)) with (m * r + 3 * (m * (m * r)) + m * z) in C by ring. lra.
Qed.
Lemma rho_ok u v U V : stands_for u U -> stands_for v V -> U * U + V * V <= bpow radix2 810 ->
  exists p, stands_for (rho_f64 u v) p /\ 0 <= p /\
    Rabs (p - R_sqrt.sqrt (U * U + V * V)) <= 5 * mu * R_sqrt.sqrt (U * U + V * V) + bpow radix2 (-530).
Proof.
  intros Hu Hv B. set (N := U * U + V * V) in *. set (t := bpow radix2 (-1075)).
  assert (T0 : 0 < t) by apply bpow_gt_0. assert (M0 : 0 < mu < / 1000) by (unfold mu; lra).
  assert (PU : 0 <= U * U) by nra. assert (PV : 0 <= V * V) by nra. assert (PN : 0 <= N) by (unfold N; lra).
  assert (Big : bpow radix2 810 < bpow radix2 890) by (apply bpow_lt; lia).
  assert (Big' : bpow radix2 890 * 4 <= bpow radix2 900).
  { replace 4 with (bpow radix2 2) by (simpl; lra). rewrite <- bpow_plus. apply bpow_le. lia. }
  assert (One : 1 < bpow radix2 890) by (change 1 with (bpow radix2 0); apply bpow_lt; lia).
  assert (Tt : t <= 1) by (change 1 with (bpow radix2 0); apply bpow_le; lia).
  set (s1 := rnd (U * U)). set (s2 := rnd (V * V)). set (s := rnd (s1 + s2)).
  assert (E1 : Rabs (s1 - U * U) <= mu * (U * U) + t) by (rewrite <- (Rabs_pos_eq (U * U)) at 2 by lra; apply rnd_mix).
  assert (E2 : Rabs (s2 - V * V) <= mu * (V * V) + t) by (rewrite <- (Rabs_pos_eq (V * V)) at 2 by lra; apply rnd_mix).
  assert (P1 : 0 <= s1) by (apply rnd_pos; lra). assert (P2 : 0 <= s2) by (apply rnd_pos; lra).
  assert (E3 : Rabs (s - (s1 + s2)) <= mu * (s1 + s2) + t).
  { rewrite <- (Rabs_pos_eq (s1 + s2)) at 2 by lra. apply rnd_mix. }
  assert (P3 : 0 <= s) by (apply rnd_pos; lra).
  apply Rabs_le_inv in E1, E2, E3.
  assert (Su : s1 + s2 <= (1 + mu) * N + 2 * t /\ (1 - mu) * N - 2 * t <= s1 + s2) by (unfold N; split; lra).
  assert (S3 : s <= (1 + 3 * mu) * N + 4 * t) by (apply sum_up with (s1 + s2); lra).
  assert (S4 : (1 - 3 * mu) * N <= s + 4 * t) by (apply sum_down with (s1 + s2); lra).
  assert (N1 : 0 <= (1 + 3 * mu) * N) by (apply Rmult_le_pos; lra).
  assert (N2 : 0 <= (1 - 3 * mu) * N) by (apply Rmult_le_pos; lra).
  assert (F : stands_for (u * u + v * v)%float s).
  { apply f_add; [apply f_mul; auto; rewrite Rabs_pos_eq by lra; unfold N in *; lra|apply f_mul; auto; rewrite Rabs_pos_eq by lra; unfold N in *; lra|].
    rewrite Rabs_pos_eq by lra. fold s1 s2. assert (mu * N <= / 1000 * N) by (apply Rmult_le_compat_r; lra). lra. }
  generalize (f_sqrt _ _ F P3). intros Q. exists (rnd (R_sqrt.sqrt s)). split; [exact Q|].
  split; [apply rnd_pos; apply sqrt_pos|].
  set (rho := R_sqrt.sqrt N). assert (R0 : 0 <= rho) by apply sqrt_pos.
  set (z := bpow radix2 (-536)). assert (Z0 : 0 < z) by apply bpow_gt_0.
  assert (Z : R_sqrt.sqrt (4 * t) <= z).
  { apply Rsqr_incr_0_var; [|lra]. unfold Rsqr. rewrite sqrt_sqrt by lra. unfold z, t. rewrite <- bpow_plus.
    replace 4 with (bpow radix2 2) by (simpl; lra). rewrite <- bpow_plus. apply bpow_le. lia. }
  assert (K1 : R_sqrt.sqrt ((1 + 3 * mu) * N) <= (1 + 3 * mu) * rho).
  { apply Rsqr_incr_0_var; [|apply Rmult_le_pos; lra]. unfold Rsqr. rewrite sqrt_sqrt by exact N1.
    replace ((1 + 3 * mu) * rho * ((1 + 3 * mu) * rho)) with ((1 + 3 * mu) * (1 + 3 * mu) * (rho * rho)) by ring.
    unfold rho. rewrite sqrt_sqrt by exact PN. apply Rmult_le_compat_r; [exact PN|clear -M0; nra]. }
  assert (K2 : (1 - 3 * mu) * rho <= R_sqrt.sqrt ((1 - 3 * mu) * N)).
  { apply Rsqr_incr_0_var; [|apply sqrt_pos]. unfold Rsqr. rewrite sqrt_sqrt by exact N2.
    replace ((1 - 3 * mu) * rho * ((1 - 3 * mu) * rho)) with ((1 - 3 * mu) * (1 - 3 * mu) * (rho * rho)) by ring.
    unfold rho. rewrite sqrt_sqrt by exact PN. apply Rmult_le_compat_r; [exact PN|clear -M0; nra]. }
  assert (U1 : R_sqrt.sqrt s <= (1 + 3 * mu) * rho + z).
  { generalize (sqrt_near s ((1 + 3 * mu) * N) (4 * t) P3 N1 ltac:(lra) ltac:(lra)). lra. }
  assert (U2 : (1 - 3 * mu) * rho <= R_sqrt.sqrt s + z).
  { generalize (sqrt_near ((1 - 3 * mu) * N) s (4 * t) N2 P3 ltac:(lra) ltac:(lra)). lra. }
  generalize (rnd_mix (R_sqrt.sqrt s)). rewrite (Rabs_pos_eq (R_sqrt.sqrt s)) by apply sqrt_pos. fold mu t. intros E4.
  apply Rabs_le_inv in E4.
  assert (TZ : t <= z) by (apply bpow_le; lia).
  assert (ZZ : 8 * z <= bpow radix2 (-530)).
  { replace 8 with (bpow radix2 3) by (simpl; lra). unfold z. rewrite <- bpow_plus. apply bpow_le. lia. }
  generalize (sqrt_pos s). intros SP. apply Rabs_le.
  generalize (last_step mu rho z t (R_sqrt.sqrt s) (rnd (R_sqrt.sqrt s)) ltac:(lra) R0 Z0 TZ SP U1 U2 E4). lra.
Qed.

(** ** quotients by the cutoff *)
Definition tn : R := bpow radix2 (-1075).
Lemma tn_pos : 0 < tn. Proof. apply bpow_gt_0. Qed.
Lemma mu_small : 0 < mu < / 1000000000000000. Proof. unfold mu. lra. Qed.
Definition r0ok (r0 : R) : Prop := bpow radix2 (-400) <= r0 <= bpow radix2 400.
Lemma r0_pos r0 : r0ok r0 -> 0 < r0. Proof. intros [H _]. generalize (bpow_gt_0 radix2 (-400)). lra. Qed.
Lemma small_unit r0 : r0ok r0 -> tn <= mu * mu * r0.
Proof.
  intros [H _]. apply Rle_trans with (mu * mu * bpow radix2 (-400)).
  - unfold tn. replace mu with (bpow radix2 (-53)) by (unfold mu; simpl; lra). rewrite <- !bpow_plus. apply bpow_le. lia.
  - apply Rmult_le_compat_l; [generalize mu_small; nra|exact H].
Qed.
Lemma cutoff_ok l D L A : stands_for l L -> stands_for D A -> / 2 ^ 200 <= L <= 2 ^ 200 -> / 2 ^ 200 <= A <= 2 ^ 200 ->
  r0ok (A / L) /\ exists r, stands_for (D / l)%float r /\ Rabs (r - A / L) <= 2 * mu * (A / L).
Proof.
  intros Hl HD BL BA. rewrite pow_200i, pow_200 in *.
  assert (L0 : 0 < L) by (generalize (bpow_gt_0 radix2 (-200)); lra).
  assert (A0 : 0 < A) by (generalize (bpow_gt_0 radix2 (-200)); lra).
  assert (K : r0ok (A / L)).
  { split.
    - apply Rmult_le_reg_r with L; [exact L0|]. unfold Rdiv. rewrite Rmult_assoc, Rinv_l, Rmult_1_r by lra.
      apply Rle_trans with (bpow radix2 (-400) * bpow radix2 200); [apply Rmult_le_compat_l; [apply bpow_ge_0|lra]|].
      rewrite <- bpow_plus. simpl (-400 + 200)%Z. lra.
    - apply Rmult_le_reg_r with L; [exact L0|]. unfold Rdiv. rewrite Rmult_assoc, Rinv_l, Rmult_1_r by lra.
      apply Rle_trans with (bpow radix2 400 * bpow radix2 (-200)); [rewrite <- bpow_plus; simpl (400 + -200)%Z; lra|].
      apply Rmult_le_compat_l; [apply bpow_ge_0|lra]. }
  split; [exact K|]. generalize (r0_pos _ K). intros P. exists (rnd (A / L)). split.
  - apply f_div; auto; [lra|]. rewrite Rabs_pos_eq by lra. eapply Rle_lt_trans; [exact (proj2 K)|]. apply bpow_lt. lia.
  - eapply Rle_trans; [apply rnd_mix|]. rewrite Rabs_pos_eq by lra. fold mu tn. generalize (small_unit _ K) mu_small. intros S M.
    assert (mu * mu * (A / L) <= mu * 1 * (A / L)).
    { apply Rmult_le_compat_r; [lra|]. apply Rmult_le_compat_l; lra. }
    lra.
Qed.
Lemma inv_near rh r0 : 0 < r0 -> Rabs (rh - r0) <= 2 * mu * r0 -> 0 < rh /\ (1 - 3 * mu) <= r0 / rh <= 1 + 3 * mu.
Proof.
  intros P H. generalize mu_small. intros M. apply Rabs_le_inv in H.
  assert (K : 2 * mu * r0 <= / 1000 * r0) by (apply Rmult_le_compat_r; lra).
  assert (R0 : 0 < rh) by lra. split; [exact R0|].
  assert (Q : mu * r0 <= / 1000000000000000 * r0) by (apply Rmult_le_compat_r; lra).
  assert (Q2 : mu * (mu * r0) <= / 1000000000000000 * (mu * r0)) by (apply Rmult_le_compat_r; [apply Rmult_le_pos; lra|lra]).
  assert (Q0 : 0 <= mu * r0) by (apply Rmult_le_pos; lra).
  assert (B1 : mu * (r0 - 2 * mu * r0) <= mu * rh) by (apply Rmult_le_compat_l; lra).
  assert (B2 : mu * rh <= mu * (r0 + 2 * mu * r0)) by (apply Rmult_le_compat_l; lra).
  split; apply Rmult_le_reg_r with rh; auto; unfold Rdiv; rewrite Rmult_assoc, Rinv_l, Rmult_1_r by lra.
  - replace (mu * (r0 + 2 * mu * r0)) with (mu * r0 + 2 * (mu * (mu * r0))) in B2 by ring. 
    replace (mu * (r0 - 2 * mu * r0)) with (mu * r0 - 2 * (mu * (mu * r0))) in B1 by ring. lra.
  - replace (mu * (r0 - 2 * mu * r0)) with (mu * r0 - 2 * (mu * (mu * r0))) in B1 by ring. lra.
Qed.
Lemma scale_div p r0 rh : 0 <= p -> 0 < r0 -> Rabs (rh - r0) <= 2 * mu * r0 ->
  Rabs (rnd (p / rh) - p / r0) <= 5 * mu * (p / r0) + tn /\ 0 <= p / rh <= 2 * (p / r0).
Proof.
  intros P R0 H. destruct (inv_near rh r0 R0 H) as (RH & K1 & K2). generalize mu_small tn_pos. intros M T.
  set (w := p / r0). assert (W : 0 <= w) by (unfold w, Rdiv; apply Rmult_le_pos; [exact P|left; apply Rinv_0_lt_compat; exact R0]).
  assert (E : p / rh = w * (r0 / rh)) by (unfold w; field; lra).
  assert (B : w * (1 - 3 * mu) <= p / rh <= w * (1 + 3 * mu)) by (rewrite E; split; apply Rmult_le_compat_l; lra).
  assert (MW : 0 <= mu * w) by (apply Rmult_le_pos; lra).
  assert (MW1 : mu * w <= / 1000 * w) by (apply Rmult_le_compat_r; lra).
  replace (w * (1 - 3 * mu)) with (w - 3 * (mu * w)) in B by ring. replace (w * (1 + 3 * mu)) with (w + 3 * (mu * w)) in B by ring.
  split; [|lra]. generalize (rnd_mix (p / rh)). rewrite (Rabs_pos_eq (p / rh)) by lra. fold mu tn. intros Q. apply Rabs_le_inv in Q.
  assert (mu * (p / rh) <= mu * (w + 3 * (mu * w))) by (apply Rmult_le_compat_l; lra).
  assert (mu * (mu * w) <= / 1000 * (mu * w)) by (apply Rmult_le_compat_r; lra).
  replace (mu * (w + 3 * (mu * w))) with (mu * w + 3 * (mu * (mu * w))) in H0 by ring.
  apply Rabs_le. lra.
Qed.

(** ** the four numbers computed from frequency, wavelength, diameter and obscuration *)
Lemma div_pos a b : 0 <= a -> 0 < b -> 0 <= a / b.
Proof. intros. unfold Rdiv. apply Rmult_le_pos; [assumption|left; apply Rinv_0_lt_compat; assumption]. Qed.
Lemma div_le a b c : 0 < c -> a <= b -> a / c <= b / c.
Proof. intros. unfold Rdiv. apply Rmult_le_compat_r; [left; apply Rinv_0_lt_compat; assumption|assumption]. Qed.
Lemma tn_mu : tn <= mu * mu * / 1000.
Proof.
  apply Rle_trans with (mu * mu * bpow radix2 (-10)).
  - unfold tn. replace mu with (bpow radix2 (-53)) by (unfold mu; simpl; lra). rewrite <- !bpow_plus. apply bpow_le. lia.
  - apply Rmult_le_compat_l; [generalize mu_small; nra|simpl; lra].
Qed.
Lemma mumu : 0 < mu * mu <= / 1000000 * mu.
Proof. unfold mu. lra. Qed.
Lemma big_ok x r0 b : r0ok r0 -> 0 <= x <= b * r0 -> b <= bpow radix2 100 -> Rabs x < bpow radix2 900.
Proof.
  intros K X B. generalize (r0_pos _ K). intros P. rewrite Rabs_pos_eq by lra.
  apply Rle_lt_trans with (bpow radix2 100 * bpow radix2 400).
  - apply Rle_trans with (1 := proj2 X). apply Rle_trans with (bpow radix2 100 * r0); [apply Rmult_le_compat_r; lra|].
    apply Rmult_le_compat_l; [apply bpow_ge_0|exact (proj2 K)].
  - rewrite <- bpow_plus. apply bpow_lt. lia.
Qed.
Lemma small_ok x : 0 <= x <= 1000 -> Rabs x < bpow radix2 900.
Proof.
  intros X. rewrite Rabs_pos_eq by lra. apply Rle_lt_trans with (bpow radix2 10); [simpl; lra|]. apply bpow_lt. lia.
Qed.
Lemma radial_units u v l D U V L A : stands_for u U -> stands_for v V -> stands_for l L -> stands_for D A ->
  / 2 ^ 200 <= L <= 2 ^ 200 -> / 2 ^ 200 <= A <= 2 ^ 200 -> R_sqrt.sqrt (U * U + V * V) <= 2 * (A / L) ->
  exists p r, stands_for (rho_f64 u v) p /\ stands_for (D / l)%float r /\ r0ok (A / L) /\ Rabs (r - A / L) <= 2 * mu * (A / L) /\
    0 <= p /\ 0 <= rel_freq U V L A <= 2 /\ Rabs (p / (A / L) - rel_freq U V L A) <= 11 * mu.
Proof.
  intros Hu Hv Hl HD BL BA F. destruct (cutoff_ok l D L A Hl HD BL BA) as (K & r & Hr & Er).
  generalize (r0_pos _ K) mu_small. intros P M. set (r0 := A / L) in *. set (rho := R_sqrt.sqrt (U * U + V * V)) in *.
  assert (R0 : 0 <= rho) by apply sqrt_pos. assert (N0 : 0 <= U * U + V * V) by nra.
  assert (B : U * U + V * V <= bpow radix2 810).
  { rewrite <- (sqrt_sqrt _ N0). fold rho. apply Rle_trans with ((2 * r0) * (2 * r0)); [apply Rmult_le_compat; lra|].
    replace (2 * r0 * (2 * r0)) with (4 * (r0 * r0)) by ring.
    apply Rle_trans with (bpow radix2 2 * (bpow radix2 400 * bpow radix2 400)).
    - simpl (bpow radix2 2). apply Rmult_le_compat_l; [lra|]. destruct K. apply Rmult_le_compat; lra.
    - rewrite <- !bpow_plus. apply bpow_le. lia. }
  destruct (rho_ok u v U V Hu Hv B) as (p & Hp & P0 & Ep). fold rho in Ep. exists p, r.
  assert (X : rel_freq U V L A = rho / r0) by reflexivity.
  assert (X0 : 0 <= rho / r0) by (apply div_pos; lra).
  assert (X2 : rho / r0 <= 2).
  { apply Rmult_le_reg_r with r0; [exact P|]. unfold Rdiv. rewrite Rmult_assoc, Rinv_l by lra. lra. }
  repeat (split; [assumption|]). split; [rewrite X; lra|]. rewrite X.
  replace (p / r0 - rho / r0) with ((p - rho) / r0) by (unfold Rdiv; ring).
  unfold Rdiv. rewrite Rabs_mult, (Rabs_pos_eq (/ r0)) by (left; apply Rinv_0_lt_compat; exact P).
  apply Rmult_le_reg_r with r0; [exact P|]. rewrite Rmult_assoc, Rinv_l, Rmult_1_r by lra.
  eapply Rle_trans; [exact Ep|].
  assert (Q : bpow radix2 (-530) <= mu * r0).
  { apply Rle_trans with (mu * bpow radix2 (-400)).
    - replace mu with (bpow radix2 (-53)) by (unfold mu; simpl; lra). rewrite <- bpow_plus. apply bpow_le. lia.
    - apply Rmult_le_compat_l; [lra|exact (proj1 K)]. }
  assert (5 * mu * rho <= 5 * mu * (2 * r0)) by (apply Rmult_le_compat_l; lra). lra.
Qed.

(* rho / r0 *)
Lemma x_ok pf rf p r r0 x : stands_for pf p -> stands_for rf r -> r0ok r0 -> Rabs (r - r0) <= 2 * mu * r0 -> 0 <= p -> 0 <= x <= 2 ->
  Rabs (p / r0 - x) <= 11 * mu -> exists z, stands_for (pf / rf)%float z /\ 0 <= z /\ Rabs (z - x) <= 25 * mu.
Proof.
  intros Hp Hr K Er P0 X E. generalize (r0_pos _ K) mu_small tn_mu mumu. intros P M T MM.
  destruct (scale_div p r0 r P0 P Er) as [Q B]. destruct (inv_near r r0 P Er) as [RP _].
  set (w := p / r0) in *. apply Rabs_le_inv in E, Q. exists (rnd (p / r)). split; [|split].
  - apply f_div; auto; [lra|]. apply small_ok. lra.
  - apply rnd_pos. lra.
  - assert (5 * mu * w <= 5 * mu * 2.01) by (apply Rmult_le_compat_l; lra). apply Rabs_le. lra.
Qed.
(* rho / eta / r0 *)
Lemma y_ok pf rf ef p r e r0 x : stands_for pf p -> stands_for rf r -> stands_for ef e -> r0ok r0 -> Rabs (r - r0) <= 2 * mu * r0 -> 0 <= p ->
  0 <= x <= 2 -> 0.1 <= e <= 0.9 -> Rabs (p / r0 - x) <= 11 * mu ->
  exists z, stands_for (pf / ef / rf)%float z /\ 0 <= z /\ Rabs (z - x / e) <= 250 * mu.
Proof.
  intros Hp Hr He K Er P0 X Ee E. generalize (r0_pos _ K) mu_small tn_mu mumu (small_unit _ K). intros P M T MM SU.
  set (w := p / r0) in *. assert (Pw : p = w * r0) by (unfold w; field; lra). apply Rabs_le_inv in E.
  assert (W : 0 <= w) by (apply div_pos; lra).
  assert (Ei : / e <= 10) by (replace 10 with (/ 0.1) by lra; apply Rinv_le; lra).
  assert (Ei0 : 0 < / e) by (apply Rinv_0_lt_compat; lra).
  set (g := rnd (p / e)). assert (G0 : 0 <= g) by (apply rnd_pos; apply div_pos; lra).
  assert (Eg : Rabs (g - p / e) <= mu * (p / e) + tn).
  { rewrite <- (Rabs_pos_eq (p / e)) at 2 by (apply div_pos; lra). apply rnd_mix. }
  apply Rabs_le_inv in Eg.
  assert (Pe : p / e <= 21 * r0).
  { unfold Rdiv. rewrite Pw. replace (w * r0 * / e) with (w * / e * r0) by ring. apply Rmult_le_compat_r; [lra|].
    apply Rle_trans with (2.01 * 10); [apply Rmult_le_compat; lra|lra]. }
  assert (Hg : stands_for (pf / ef)%float g).
  { apply f_div; auto; [lra|]. apply big_ok with r0 21; auto; [split; [apply div_pos; lra|exact Pe]|simpl; lra]. }
  (* g / r0 *)
  set (h := g / r0). assert (H0 : 0 <= h) by (apply div_pos; lra).
  assert (Eh : Rabs (h - x / e) <= 140 * mu).
  { assert (Hw : h - x / e = (g - p / e) / r0 + (w - x) * / e) by (unfold h; rewrite Pw; field; lra).
    rewrite Hw. assert (A1 : Rabs ((g - p / e) / r0) <= 22 * mu).
    { unfold Rdiv at 1. rewrite Rabs_mult, (Rabs_pos_eq (/ r0)) by (left; apply Rinv_0_lt_compat; lra).
      apply Rmult_le_reg_r with r0; [exact P|]. rewrite Rmult_assoc, Rinv_l, Rmult_1_r by lra.
      assert (mu * (p / e) <= mu * (21 * r0)) by (apply Rmult_le_compat_l; lra).
      assert (mu * mu * r0 <= / 1000000 * mu * r0) by (apply Rmult_le_compat_r; lra).
      assert (0 < mu * r0) by (apply Rmult_lt_0_compat; lra). apply Rabs_le. lra. }
    assert (A2 : Rabs ((w - x) * / e) <= 110 * mu).
    { rewrite Rabs_mult, (Rabs_pos_eq (/ e)) by lra. apply Rle_trans with (11 * mu * 10); [|lra].
      apply Rmult_le_compat; [apply Rabs_pos|lra|apply Rabs_le; lra|lra]. }
    eapply Rle_trans; [apply Rabs_triang|]. lra. }
  apply Rabs_le_inv in Eh.
  assert (Y : 0 <= x / e <= 20).
  { split; [apply div_pos; lra|]. unfold Rdiv. apply Rle_trans with (2 * 10); [apply Rmult_le_compat; lra|lra]. }
  destruct (scale_div g r0 r G0 P Er) as [Q B]. fold h in Q, B. apply Rabs_le_inv in Q.
  destruct (inv_near r r0 P Er) as [RP _].
  exists (rnd (g / r)). split; [|split].
  - apply f_div; auto; [lra|]. apply small_ok. lra.
  - apply rnd_pos. lra.
  - assert (5 * mu * h <= 5 * mu * 20.1) by (apply Rmult_le_compat_l; lra). apply Rabs_le. lra.
Qed.
(* 2 rho / r0 *)
Lemma d_ok pf rf p r r0 x : stands_for pf p -> stands_for rf r -> r0ok r0 -> Rabs (r - r0) <= 2 * mu * r0 -> 0 <= p -> 0 <= x <= 2 ->
  Rabs (p / r0 - x) <= 11 * mu -> exists z, stands_for (2 * pf / rf)%float z /\ 0 <= z /\ Rabs (z - 2 * x) <= 50 * mu.
Proof.
  intros Hp Hr K Er P0 X E. generalize (r0_pos _ K) mu_small tn_mu mumu (small_unit _ K). intros P M T MM SU.
  set (w := p / r0) in *. assert (Pw : p = w * r0) by (unfold w; field; lra). apply Rabs_le_inv in E.
  assert (W : 0 <= w) by (apply div_pos; lra).
  set (g := rnd (2 * p)). assert (G0 : 0 <= g) by (apply rnd_pos; lra).
  assert (Eg : Rabs (g - 2 * p) <= mu * (2 * p) + tn).
  { rewrite <- (Rabs_pos_eq (2 * p)) at 2 by lra. apply rnd_mix. }
  apply Rabs_le_inv in Eg.
  assert (Pe : 2 * p <= 5 * r0).
  { rewrite Pw. replace (2 * (w * r0)) with (2 * w * r0) by ring. apply Rmult_le_compat_r; lra. }
  assert (Hg : stands_for (2 * pf)%float g).
  { apply f_mul; [exact f_two|exact Hp|]. apply big_ok with r0 5; auto; [lra|simpl; lra]. }
  set (h := g / r0). assert (H0 : 0 <= h) by (apply div_pos; lra).
  assert (Eh : Rabs (h - 2 * x) <= 28 * mu).
  { assert (Hw : h - 2 * x = (g - 2 * p) / r0 + 2 * (w - x)) by (unfold h; rewrite Pw; field; lra).
    rewrite Hw. assert (A1 : Rabs ((g - 2 * p) / r0) <= 6 * mu).
    { unfold Rdiv at 1. rewrite Rabs_mult, (Rabs_pos_eq (/ r0)) by (left; apply Rinv_0_lt_compat; lra).
      apply Rmult_le_reg_r with r0; [exact P|]. rewrite Rmult_assoc, Rinv_l, Rmult_1_r by lra.
      assert (mu * (2 * p) <= mu * (5 * r0)) by (apply Rmult_le_compat_l; lra).
      assert (mu * mu * r0 <= / 1000000 * mu * r0) by (apply Rmult_le_compat_r; lra).
      assert (0 < mu * r0) by (apply Rmult_lt_0_compat; lra). apply Rabs_le. lra. }
    assert (A2 : Rabs (2 * (w - x)) <= 22 * mu) by (apply Rabs_le; lra).
    eapply Rle_trans; [apply Rabs_triang|]. lra. }
  apply Rabs_le_inv in Eh.
  destruct (scale_div g r0 r G0 P Er) as [Q B]. fold h in Q, B. apply Rabs_le_inv in Q.
  destruct (inv_near r r0 P Er) as [RP _].
  exists (rnd (g / r)). split; [|split].
  - apply f_div; auto; [lra|]. apply small_ok. lra.
  - apply rnd_pos. lra.
  - assert (5 * mu * h <= 5 * mu * 4.1) by (apply Rmult_le_compat_l; lra). apply Rabs_le. lra.
Qed.
