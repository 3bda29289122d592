(** * Proof_F64Libm: functions of the kind assumed in Spec_F64Aperture exist *)
From Coq Require Import Reals ZArith Lia Lra Psatz Floats.
From Flocq Require Import Core IEEE754.BinarySingleNaN IEEE754.PrimFloat.
From Verif Require Import Spec_F64 Spec_F64Aperture Proof_Round Proof_F64Size Proof_F64Db Proof_F64Slice Base_XR Proof_Aper Proof_F64Aper1 Proof_F64Aper2 Num_PiF64 Proof_F64Aper3 Proof_F64Aper4.
Open Scope R_scope.

(* the binary64 number nearest to y *)
Definition to_float (y : R) : PrimFloat.float :=
  B2Prim (binary_normalize FloatOps.prec emax eq_refl eq_refl mode_NE (Ztrunc (scaled_mantissa radix2 (FLT_exp (-1074) 53) (rnd y)))
    (cexp radix2 (FLT_exp (-1074) 53) (rnd y)) false).
Lemma rnd_format y : generic_format radix2 (FLT_exp (-1074) 53) (rnd y).
Proof. apply generic_format_round; [apply FLT_exp_valid; reflexivity|apply valid_rnd_N]. Qed.
Lemma to_float_ok y : Rabs y < bpow radix2 900 -> stands_for (to_float y) (rnd y).
Proof.
  intros B. unfold to_float, stands_for. rewrite Prim2B_B2Prim.
  generalize (binary_normalize_correct FloatOps.prec emax eq_refl eq_refl mode_NE
    (Ztrunc (scaled_mantissa radix2 (FLT_exp (-1074) 53) (rnd y))) (cexp radix2 (FLT_exp (-1074) 53) (rnd y)) false).
  change (SpecFloat.fexp FloatOps.prec emax) with (FLT_exp (-1074) 53).
  cbv zeta.
  assert (Q : F2R (Float radix2 (Ztrunc (scaled_mantissa radix2 (FLT_exp (-1074) 53) (rnd y))) (cexp radix2 (FLT_exp (-1074) 53) (rnd y))) = rnd y) by (symmetry; exact (rnd_format y)).
  rewrite Q. rewrite round_generic by (try apply valid_rnd_round_mode; apply rnd_format).
  rewrite Rlt_bool_true. { intros (H1 & H2 & _). split; assumption. }
  apply Rle_lt_trans with (bpow radix2 900).
  - apply abs_round_le_generic; [apply FLT_exp_valid; reflexivity|apply valid_rnd_N| |lra].
    apply generic_format_bpow. unfold FLT_exp; apply Z.max_lub; lia.
  - apply bpow_lt. reflexivity.
Qed.

Definition val (x : PrimFloat.float) : R := B2R (Prim2B x).
Lemma val_ok x r : stands_for x r -> val x = r. Proof. intros [_ H]. exact H. Qed.
Definition acos_f (x : PrimFloat.float) : PrimFloat.float :=
  if Rle_dec (-1) (val x) then if Rle_dec (val x) 1 then to_float (Rmin pi_below (acos (val x))) else nan else nan.
Definition sin_f (x : PrimFloat.float) : PrimFloat.float := to_float (sin (val x)).
Definition atan_f (x : PrimFloat.float) : PrimFloat.float := to_float (atan (val x)).
Definition tan_f (x : PrimFloat.float) : PrimFloat.float := if Rlt_dec (val x) (bpow radix2 (-100)) then x else to_float (tan (val x)).
Lemma rnd_pi : rnd pi_below = pi_below.
Proof.
  assert (H : pi_below = IZR 884279719003555 * bpow radix2 (-48)) by (unfold pi_below; simpl; lra).
  rewrite H. apply rnd_exact; lia.
Qed.
Lemma round4 y : Rabs y <= 4 -> stands_for (to_float y) (rnd y) /\ Rabs (rnd y - y) <= / 2 ^ 41.
Proof.
  intros Y. split; [apply to_float_ok, lt_900; lra|]. generalize (rnd_100 y ltac:(lra)). intros R.
  replace (2 ^ 41) with 2199023255552 by ring. unfold one_rnd in R. lra.
Qed.
Lemma tan_tiny r : 0 <= r <= / 2 ^ 20 -> Rabs (r - tan r) <= tan r / 2 ^ 40.
Proof.
  intros R. replace (2 ^ 20) with 1048576 in R by ring. generalize pi_3. intros P.
  assert (C : 0 < cos r) by (apply cos_gt_0; lra). assert (S0 : 0 <= sin r) by (apply sin_ge_0; lra).
  assert (S1 : sin r <= r) by (generalize (sin_abs_le r); rewrite !Rabs_pos_eq by lra; lra).
  assert (T : tan r * cos r = sin r) by (unfold tan; field; lra).
  assert (T0 : 0 <= tan r) by (unfold tan; apply div_pos; lra).
  assert (H : 1 - cos r <= r * r / 2).
  { replace r with (2 * (r / 2)) at 1 by field. rewrite cos_2a_sin.
    assert (G0 : 0 <= sin (r / 2)) by (apply sin_ge_0; lra).
    assert (G1 : sin (r / 2) <= r / 2) by (generalize (sin_abs_le (r / 2)); rewrite !Rabs_pos_eq by lra; lra).
    assert (sin (r / 2) * sin (r / 2) <= r / 2 * (r / 2)) by (apply Rmult_le_compat; lra). lra. }
  assert (RR : r * r <= / 1048576 * / 1048576) by (apply Rmult_le_compat; lra).
  assert (U : tan r - r <= tan r * / 2 ^ 40).
  { apply Rle_trans with (tan r * (1 - cos r)); [lra|]. apply Rmult_le_compat_l; [exact T0|]. replace (2 ^ 40) with 1099511627776 by ring. lra. }
  assert (W : r <= tan r).
  { destruct (Req_dec r 0) as [->|N]; [rewrite tan_0; lra|].
    destruct (Req_dec (tan r) 0) as [Z|Z].
    - exfalso. rewrite Z in T. generalize (sin_half r ltac:(lra)). lra.
    - destruct (atan_mvt 0 (tan r) ltac:(lra)) as (c & Hc & E). rewrite atan_0, atan_tan, !Rminus_0_r in E by lra. rewrite E at 1.
      assert (0 <= c * c) by nra. apply Rmult_le_reg_r with (1 + c * c); [lra|]. unfold Rdiv. rewrite Rmult_assoc, Rinv_l by lra.
      apply Rmult_le_compat_l; lra. }
  rewrite Rabs_left1 by lra. unfold Rdiv. lra.
Qed.
Lemma libm_exists : good_libm acos_f sin_f tan_f atan_f.
Proof.
  generalize pi_below_near pi_3. intros PB P3. replace (/ 4503599627370496) with (/ 2 ^ 52) in PB by (f_equal; ring).
  assert (P41 : / 2 ^ 41 + / 2 ^ 41 <= / 2 ^ 40) by (replace (2 ^ 41) with 2199023255552 by ring; replace (2 ^ 40) with 1099511627776 by ring; lra).
  assert (P52 : / 2 ^ 52 <= / 2 ^ 41) by (apply Rinv_le; [apply pow_lt; lra|apply Rle_pow; [lra|lia]]).
  assert (P0 : 0 < / 2 ^ 41) by (apply Rinv_0_lt_compat, pow_lt; lra).
  split.
  - intros x r H B. unfold acos_f. rewrite (val_ok x r H). destruct (Rle_dec (-1) r); [|lra]. destruct (Rle_dec r 1); [|lra].
    generalize (acos_bound r). intros Ba. set (m := Rmin pi_below (acos r)).
    assert (M : 0 <= m <= pi_below /\ Rabs (m - acos r) <= / 2 ^ 52).
    { unfold m, Rmin. destruct (Rle_dec pi_below (acos r)).
      - split; [lra|]. apply Rabs_le. lra.
      - split; [lra|]. rewrite Rminus_diag_eq, Rabs_R0 by reflexivity. generalize (Rinv_0_lt_compat (2 ^ 52) ltac:(apply pow_lt; lra)). lra. }
    destruct M as [M1 M2]. destruct (round4 m ltac:(rewrite Rabs_pos_eq; unfold pi_below in *; lra)) as [S E]. exists (rnd m). split; [exact S|]. split.
    + split; [apply rnd_pos; lra|]. rewrite <- rnd_pi. apply rnd_mono. lra.
    + replace (rnd m - acos r) with ((rnd m - m) + (m - acos r)) by ring. eapply Rle_trans; [apply Rabs_triang|]. lra.
  - intros x r H B. unfold acos_f. rewrite (val_ok x r H). destruct (Rle_dec (-1) r); [|reflexivity]. destruct (Rle_dec r 1); [lra|reflexivity].
  - intros x r H B. unfold sin_f. rewrite (val_ok x r H). destruct (round4 (sin r)) as [S E].
    { generalize (SIN_bound r). intros. apply Rabs_le. lra. }
    exists (rnd (sin r)). split; [exact S|lra].
  - intros x r H B. unfold tan_f. rewrite (val_ok x r H). destruct (Rlt_dec r (bpow radix2 (-100))) as [C|C].
    + exists r. split; [exact H|]. apply tan_tiny. split; [lra|].
      apply Rle_trans with (bpow radix2 (-20)); [apply Rlt_le, Rlt_le_trans with (1 := C); apply bpow_le; lia|].
      replace (2 ^ 20) with 1048576 by ring. simpl. lra.
    + generalize (tan_below r B). intros T. exists (rnd (tan r)). split.
      { apply to_float_ok. rewrite Rabs_pos_eq by lra. apply Rle_lt_trans with (1 := proj2 T). apply bpow_lt. lia. }
      assert (Tl : bpow radix2 (-101) <= tan r).
      { assert (Hc : 0 < cos r <= 1) by (split; [apply cos_gt_0; lra|apply COS_bound]).
        generalize (sin_half r ltac:(lra)). intros Sh. unfold tan. apply Rle_trans with (r / 2).
        - replace (bpow radix2 (-101)) with (bpow radix2 (-100) / 2) by (change (-101)%Z with (-100 + -1)%Z; rewrite bpow_plus; simpl (bpow radix2 (-1)); lra). lra.
        - apply Rle_trans with (sin r); [lra|]. apply Rmult_le_reg_r with (cos r); [lra|]. unfold Rdiv. rewrite Rmult_assoc, Rinv_l by lra.
          assert (0 <= sin r) by (apply sin_ge_0; lra). apply Rmult_le_compat_l; lra. }
      eapply Rle_trans; [apply rnd_mix|]. fold mu tn. rewrite Rabs_pos_eq by lra.
      assert (tn <= mu * tan r).
      { apply Rle_trans with (mu * bpow radix2 (-101)).
        - replace mu with (bpow radix2 (-53)) by (unfold mu; simpl; lra). unfold tn. rewrite <- bpow_plus. apply bpow_le. lia.
        - apply Rmult_le_compat_l; [generalize mu_small; lra|exact Tl]. }
      unfold Rdiv. rewrite eps_pow. assert (2 * mu * tan r <= eps * tan r) by (apply Rmult_le_compat_r; [lra|unfold mu, eps; lra]). lra.
  - intros x r H B. unfold atan_f. rewrite (val_ok x r H). destruct (round4 (atan r)) as [S E].
    { generalize (atan_bound r). intros. apply Rabs_le. lra. }
    exists (rnd (atan r)). split; [exact S|lra].
Qed.
