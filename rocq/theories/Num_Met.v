(** * Num_Met: numeric enclosures used by the metric properties. *)
From Coq Require Import Reals Lra.
From Interval Require Import Tactic.
From Verif Require Import Base_XR Model_Met Spec_Met Proof_Giqe.
Open Scope R_scope.

Lemma drop_num : 2.817 * (log10 0.9 - log10 0.89999) + 1.258 * log10 (10 / 9) < 0.16 * log10 2.291.
Proof. unfold log10. interval with (i_prec 60). Qed.
Lemma keep_num : 0.16 * log10 2.289 < 1.258 * log10 (10 / 9).
Proof. unfold log10. interval with (i_prec 60). Qed.

Lemma giqe4_drop g e n s a : s <> 0 -> 0 < a < PI -> 2.291 * inch <= g / sqrt (sin a) ->
  exists v1 v2 p, giqe4 (Fin 0.89999) (Fin g) (Fin e) (Fin n) (Fin s) (Fin a) = (Fin v1, p) /\
    giqe4 (Fin 0.9) (Fin g) (Fin e) (Fin n) (Fin s) (Fin a) = (Fin v2, p) /\ v2 < v1.
Proof.
  intros Hs Ha Hg. assert (Sa : 0 < sin a) by (apply sin_gt_0; lra). pose proof (sqrt_lt_R0 _ Sa) as Q. pose proof inch_pos.
  assert (G : 0 < g).
  { destruct (Rlt_dec 0 g) as [|N]; auto. exfalso. assert (g / sqrt (sin a) <= 0).
    { apply Rmult_le_reg_r with (sqrt (sin a)); auto. unfold Rdiv. rewrite Rmult_assoc, Rinv_l by lra. lra. } lra. }
  do 3 eexists. rewrite !giqe4_value by lra. do 2 (split; [reflexivity|]).
  pose proof (jump 0.89999 (g / sqrt (sin a)) e n s ltac:(lra)) as J.
  assert (L : log10 2.291 <= log10 (g / sqrt (sin a) / inch)).
  { apply log10_le; [lra|]. apply Rmult_le_reg_r with inch; auto. unfold Rdiv at 1. rewrite Rmult_assoc, Rinv_l; lra. }
  pose proof drop_num. lra.
Qed.
Lemma giqe4_keep r1 r2 g e n s a : 0 < r1 -> r1 < r2 -> 0 < g -> s <> 0 -> 0 < a < PI -> g / sqrt (sin a) <= 2.289 * inch ->
  exists v1 v2 p, giqe4 (Fin r1) (Fin g) (Fin e) (Fin n) (Fin s) (Fin a) = (Fin v1, Fin p) /\
    giqe4 (Fin r2) (Fin g) (Fin e) (Fin n) (Fin s) (Fin a) = (Fin v2, Fin p) /\ v1 < v2.
Proof.
  intros H1 H2 G Hs Ha Hg.
  destruct (Rlt_dec r2 0.9) as [A|A]; [apply giqe4_rer; auto; lra|].
  destruct (Rlt_dec r1 0.9) as [B|B]; [|apply giqe4_rer; auto; lra].
  assert (Sa : 0 < sin a) by (apply sin_gt_0; lra). pose proof (sqrt_lt_R0 _ Sa) as Q. pose proof inch_pos.
  assert (GP : 0 < g / sqrt (sin a)) by now apply Rdiv_lt_0_compat.
  do 3 eexists. rewrite !giqe4_value by lra. do 2 (split; [reflexivity|]).
  pose proof (jump r1 (g / sqrt (sin a)) e n s B) as J.
  assert (L : log10 (g / sqrt (sin a) / inch) <= log10 2.289).
  { apply log10_le; [now apply in_inches|]. apply Rmult_le_reg_r with inch; auto. unfold Rdiv at 1. rewrite Rmult_assoc, Rinv_l; lra. }
  assert (L1 : log10 r1 < log10 0.9) by (apply log10_lt; lra). pose proof keep_num.
  assert (K : v4 0.9 (g / sqrt (sin a)) e n s <= v4 r2 (g / sqrt (sin a)) e n s).
  { unfold v4, k1, k2. rewrite !(proj2 (Rleb_true _ _)) by lra.
    assert (log10 0.9 <= log10 r2) by (apply log10_le; lra). lra. }
  lra.
Qed.
Lemma giqe4_rer_refuted : ~ forall r1 r2 g e n s a v1 v2 p1 p2, 0 < r1 -> r1 <= r2 -> 0 < g -> 0 < s -> 0 < a <= PI / 2 ->
  giqe4 (Fin r1) (Fin g) (Fin e) (Fin n) (Fin s) (Fin a) = (Fin v1, p1) ->
  giqe4 (Fin r2) (Fin g) (Fin e) (Fin n) (Fin s) (Fin a) = (Fin v2, p2) -> v1 <= v2.
Proof.
  intros H. destruct (giqe4_drop 1 1 1 50 (PI / 2)) as (v1 & v2 & p & E1 & E2 & L); try lra.
  - pose proof PI_RGT_0; lra.
  - rewrite sin_PI2, sqrt_1. unfold inch. lra.
  - pose proof PI_RGT_0. specialize (H 0.89999 0.9 1 1 1 50 (PI / 2) v1 v2 p p ltac:(lra) ltac:(lra) ltac:(lra) ltac:(lra) ltac:(lra) E1 E2). lra.
Qed.

Lemma giqe5_test_case : exists v, giqe5 (Fin 0.35) (Fin 0.35) (Fin 0.52832) (Fin 50) (Fin (PI / 2)) = (Fin v, Fin 0.52832, Fin 0.35) /\
  Rabs (v - 5) < 0.016.
Proof.
  rewrite giqe5_value by (try rewrite sin_PI2; lra). rewrite mean5_same by lra.
  assert (E : 0.52832 / Rpower (sin (PI / 2)) (1 / 4) = 0.52832).
  { rewrite sin_PI2. unfold Rpower. rewrite ln_1, Rmult_0_r, exp_0. lra. }
  rewrite E. eexists. split; [reflexivity|]. unfold v5. rewrite mean5_same by lra. unfold f5, log10, inch. 
  apply Rabs_def1; interval.
Qed.
