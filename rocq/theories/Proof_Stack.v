(** * Proof_Stack: frame stacking in whole runs of niirs and niirs5 *)
From Coq Require Import Reals Lra List Lia ZArith Psatz Bool.
From Verif Require Import Base_XR Base_Np Model_Geo Model_Noise Model_Db Model_Scenario Model_Sensor Model_Rad Model_Otf Model_Img Model_Met
  Spec_Met Proof_Noise Proof_Weight Proof_Giqe Proof_Niirs Proof_Trade.
Import ListNotations.
Open Scope R_scope.

Lemma gain_pos l w : noise_gain l = Ok w -> exists g, w = Fin g /\ 0 < g.
Proof.
  unfold noise_gain. destruct (Reqb (Rsum l) 1) eqn:E; [|discriminate]. apply Reqb_true in E. cbn [negb]. intros H. apply ok_inj in H. subst w.
  rewrite xsqrt_fin by apply sumsq_nonneg. eexists. split; [reflexivity|]. apply sqrt_lt_R0. fold (sumsq l).
  destruct (sumsq_nonneg l) as [H|H]; [exact H|]. exfalso.
  assert (D := dev_nonneg (1 / INR (length l)) l). rewrite sumsq_dev, E, <- H in D.
  assert (L : (0 < length l)%nat) by (destruct l; [cbn in E; lra | cbn; lia]). apply lt_INR in L. cbn in L.
  replace (0 - 2 * (1 / INR (length l)) * 1 + INR (length l) * (1 / INR (length l) * (1 / INR (length l)))) with (- / INR (length l)) in D by (field; lra).
  assert (0 < / INR (length l)) by (apply Rinv_0_lt_compat; exact L). lra.
Qed.
Lemma stack_order n1 n2 x : 0 < n1 -> n1 < n2 ->
  (0 < x -> 0 < sqrt n1 * x /\ / (sqrt n2 * x) < / (sqrt n1 * x)) /\ (x < 0 -> sqrt n1 * x < 0 /\ / (sqrt n1 * x) < / (sqrt n2 * x)) /\
  (x <> 0 -> sqrt n1 * x <> 0 /\ sqrt n2 * x <> 0).
Proof.
  intros H1 H2. assert (S1 : 0 < sqrt n1) by (apply sqrt_lt_R0; lra). assert (S2 : sqrt n1 < sqrt n2) by (apply sqrt_lt_1_alt; lra).
  assert (K : forall y, 0 < y -> / (sqrt n2 * y) < / (sqrt n1 * y)).
  { intros y Hy. apply Rinv_lt_contravar; [|nra]. apply Rmult_lt_0_compat; nra. }
  split; [intros X; split; [nra | exact (K x X)]|]. split.
  - intros X. split; [nra|]. specialize (K (- x) ltac:(lra)).
    replace (/ (sqrt n2 * - x)) with (- / (sqrt n2 * x)) in K by (field; lra). replace (/ (sqrt n1 * - x)) with (- / (sqrt n1 * x)) in K by (field; lra). lra.
  - intros X. split; intros C; apply Rmult_integral in C; lra.
Qed.
Lemma h5_strict L y z : L <= 0.28 -> 0 <= y -> y < z -> h5 L z < h5 L y.
Proof.
  intros HL Hy Hz. assert (A := h5_anti L y z HL Hy ltac:(lra)). destruct A as [A|A]; [exact A|]. exfalso.
  assert (B := h5_anti (L + 1 / 10000) y z). unfold h5 in *.
  assert (E1 : exp (-1.9 * z) < exp (-1.9 * y)) by (apply exp_increasing; lra).
  destruct (Rle_dec L 0.27) as [Q|Q].
  - specialize (B ltac:(lra) Hy ltac:(lra)). nra.
  - clear B. assert (P : 0 < exp (-1.9 * y) <= 1).
    { split; [apply exp_pos|]. rewrite <- exp_0. destruct Hy as [Hy | <-]; [left; apply exp_increasing; lra | rewrite Rmult_0_r; lra]. }
    assert (E2 : exp (-1.9 * y) - exp (-1.9 * z) <= 1.9 * (z - y)).
    { replace (exp (-1.9 * z)) with (exp (-1.9 * y) * exp (- (1.9 * (z - y)))) by (rewrite <- exp_plus; f_equal; lra).
      assert (Q' : 1 + - (1.9 * (z - y)) <= exp (- (1.9 * (z - y)))) by apply exp_ineq1_le.
      set (p := exp (-1.9 * y)) in *. set (d := exp (- (1.9 * (z - y)))) in *. nra. }
    set (d := exp (-1.9 * y) - exp (-1.9 * z)) in *.
    assert (d * L <= 1.9 * (z - y) * 0.28) by (apply Rmult_le_compat; unfold d in *; lra). unfold d in *. lra.
Qed.
Lemma h5_strict_neg L y z : L <= 0 -> z < y -> y <= 0 -> h5 L y < h5 L z.
Proof.
  intros HL Hz Hy. unfold h5. assert (E1 : exp (-1.9 * y) < exp (-1.9 * z)) by (apply exp_increasing; lra).
  assert ((exp (-1.9 * z) - exp (-1.9 * y)) * L <= 0) by nra. lra.
Qed.

Lemma stack_run ni it diag s c itp n c1 m1 : niirs ni it diag s c itp = (c1, Ok m1) ->
  exists m2, niirs ni it diag (with_frames s n) c itp = (c1, Ok m2) /\
    n_contrast m2 = n_contrast m1 /\ n_slant m2 = n_slant m1 /\ n_otf m2 = n_otf m1 /\ n_rer m2 = n_rer m1 /\ n_eho m2 = n_eho m1 /\ n_ng m2 = n_ng m1 /\
    n_gsd_gm m2 = n_gsd_gm m1 /\ n_elev m2 = n_elev m1 /\ n_gsd_gp m2 = n_gsd_gp m1 /\ (exists w, noise_gain (concat (s_kernel s)) = Ok w /\ n_ng m1 = w) /\
    forall k m, (k, m) = (s_frames s, m1) \/ (k, m) = (n, m2) -> let snr := xmul (xsqrt (Fin k)) (m_snr (ct_snr (n_contrast m1))) in
       n_niirs m = giqe3 (n_rer m1) (n_gsd_gm m1) (n_eho m1) (n_ng m1) snr /\
       n_niirs_4 m = fst (giqe4 (n_rer m1) (n_gsd_gm m1) (n_eho m1) (n_ng m1) snr (n_elev m1)).
Proof.
  intros H. unfold niirs in *. change (load_band ni it (with_frames s n) c itp) with (load_band ni it s c itp).
  destruct (load_band ni it s c itp) as [rows|]; [|discriminate].
  change (bookkeeping (with_frames s n) c) with (bookkeeping s c). destruct (bookkeeping s c) as [z c'].
  rewrite contrast_frames. injection H as <- H. destruct (contrast_part s rows z) as [ct|]; [|discriminate]. cbn [bind] in *.
  unfold niirs_rest in *. cbn [with_frames s_px s_py s_f s_kernel s_frames].
  destruct (finite (curved_earth_slant_range _ _ _)) as [sl|]; [|discriminate]. cbn [bind] in *.
  destruct (finite (m_int_time _)) as [t|]; [|discriminate]. cbn [bind] in *. rewrite common_frames.
  destruct (common_OTFs _ _ _ _ _ _ _ _ _) as [o|]; [|discriminate]. cbn [bind] in *.
  destruct (pydiv (s_px s) (s_f s)) as [ix|]; [|discriminate]. cbn [bind] in *.
  destruct (pydiv (s_py s) (s_f s)) as [iy|]; [|discriminate]. cbn [bind] in *.
  destruct (mtf_image o) as [im|]; [|discriminate]. cbn [bind] in *.
  destruct (giqe_edge_terms _ _ _ _) as [[rer eho]|]; [|discriminate]. cbn [bind] in *.
  destruct (noise_gain _) as [ng|]; [|discriminate]. cbn [bind] in *.
  destruct (elev_angle _ _) as [el|]; [|discriminate]. cbn [bind] in *.
  unfold giqe4 in *. destruct (if xle (Fin 0.9) rer then _ else _) as [k1 k2] eqn:K. apply ok_inj in H. subst m1.
  eexists. split; [reflexivity|]. cbn [n_contrast n_slant n_otf n_rer n_eho n_ng n_gsd_gm n_elev n_gsd_gp].
  repeat (split; [reflexivity|]). split; [exists ng; split; reflexivity|].
  intros k m [E | E]; apply pair_equal_spec in E; destruct E as [-> ->]; cbn [n_niirs n_niirs_4]; rewrite K; split; reflexivity.
Qed.
Lemma stack_niirs ni it diag s c itp n c1 m1 : niirs ni it diag s c itp = (c1, Ok m1) ->
  exists m2, niirs ni it diag (with_frames s n) c itp = (c1, Ok m2) /\
    n_contrast m2 = n_contrast m1 /\ n_slant m2 = n_slant m1 /\ n_otf m2 = n_otf m1 /\ n_rer m2 = n_rer m1 /\ n_eho m2 = n_eho m1 /\ n_ng m2 = n_ng m1 /\
    n_gsd_gm m2 = n_gsd_gm m1 /\ n_elev m2 = n_elev m1 /\ n_gsd_gp m2 = n_gsd_gp m1 /\
    (0 < s_frames s -> s_frames s < n -> forall x, m_snr (ct_snr (n_contrast m1)) = Fin x ->
     forall rating, rating = n_niirs \/ rating = n_niirs_4 -> forall v1, rating m1 = Fin v1 ->
       (0 < x -> exists v2, rating m2 = Fin v2 /\ v1 < v2) /\ (x < 0 -> exists v2, rating m2 = Fin v2 /\ v2 < v1)).
Proof.
  intros H. destruct (stack_run ni it diag s c itp n c1 m1 H) as (m2 & H2 & E1 & E2 & E3 & E4 & E5 & E6 & E7 & E8 & E9 & (w & Ew & Ew') & R).
  exists m2. repeat (split; [assumption|]). intros F1 F2 x Hx rating Hr v1 Hv.
  destruct (gain_pos _ _ Ew) as (g & -> & Hg). rewrite Ew', Hx in R.
  destruct (R _ _ (or_introl eq_refl)) as [A3 A4]. destruct (R _ _ (or_intror eq_refl)) as [B3 B4]. clear R.
  rewrite xsqrt_fin, xmul_fin in A3, A4, B3, B4 by lra.
  destruct (stack_order (s_frames s) n x F1 F2) as (O1 & O2 & O3).
  assert (D : forall y, g / y = g * / y) by reflexivity. assert (D4 : forall y, 0.334 * g / y = 0.334 * (g * / y)) by (intros; unfold Rdiv; ring).
  destruct Hr as [-> | ->].
  - rewrite Hv in A3. symmetry in A3. split; intros X; destruct (O3 ltac:(lra)) as [Z1 Z2];
      destruct (giqe3_finite _ _ _ _ _ _ Z1 A3) as (A & -> & K); rewrite (K _ Z2) in B3; eexists; (split; [exact B3|]); rewrite !D.
    + destruct (O1 X) as [_ O]. apply (Rmult_lt_compat_l g) in O; [lra | exact Hg].
    + destruct (O2 X) as [_ O]. apply (Rmult_lt_compat_l g) in O; [lra | exact Hg].
  - rewrite Hv in A4. symmetry in A4. split; intros X; destruct (O3 ltac:(lra)) as [Z1 Z2];
      destruct (giqe4_finite _ _ _ _ _ _ _ Z1 A4) as (A & -> & K); rewrite (K _ Z2) in B4; eexists; (split; [exact B4|]); rewrite !D4.
    + destruct (O1 X) as [_ O]. apply (Rmult_lt_compat_l g) in O; [lra | exact Hg].
    + destruct (O2 X) as [_ O]. apply (Rmult_lt_compat_l g) in O; [lra | exact Hg].
Qed.
Lemma stack_run5 ni it diag s c itp n s1 c1 m1 : niirs5 ni it diag s c itp = (s1, c1, Ok m1) ->
  exists m2, niirs5 ni it diag (with_frames s n) c itp = (with_frames s1 n, c1, Ok m2) /\
    f_contrast m2 = f_contrast m1 /\ f_slant m2 = f_slant m1 /\ f_otf m2 = f_otf m1 /\ f_rer_0 m2 = f_rer_0 m1 /\ f_rer_90 m2 = f_rer_90 m1 /\
    f_rer m2 = f_rer m1 /\ f_gsd_x m2 = f_gsd_x m1 /\ f_elev m2 = f_elev m1 /\ f_gsd_w m2 = f_gsd_w m1 /\
    forall k m, (k, m) = (s_frames s, m1) \/ (k, m) = (n, m2) ->
      (f_niirs m, f_gsd_w m, f_rer m) = giqe5 (f_rer_0 m1) (f_rer_90 m1) (Fin (f_gsd_x m1)) (xmul (xsqrt (Fin k)) (m_snr (ct_snr (f_contrast m1)))) (f_elev m1).
Proof.
  intros H. unfold niirs5 in *. change (load_band ni it (with_frames s n) c itp) with (load_band ni it s c itp).
  destruct (load_band ni it s c itp) as [rows|]; [|discriminate].
  change (bookkeeping (with_frames s n) c) with (bookkeeping s c). destruct (bookkeeping s c) as [z c'].
  rewrite contrast_frames. destruct (contrast_part s rows z) as [ct|]; [|discriminate]. cbv zeta in *. injection H as <- <- H.
  change (no_sharpening (with_frames s n)) with (with_frames (no_sharpening s) n).
  unfold niirs5_rest in *. cbn [with_frames no_sharpening s_px s_py s_f s_kernel s_frames] in *.
  destruct (finite (curved_earth_slant_range _ _ _)) as [sl|]; [|discriminate]. cbn [bind] in *.
  destruct (finite (m_int_time _)) as [t|]; [|discriminate]. cbn [bind] in *. rewrite common_frames.
  destruct (common_OTFs _ _ _ _ _ _ _ _ _) as [o|]; [|discriminate]. cbn [bind] in *.
  destruct (pydiv (s_px s) (s_f s)) as [ix|]; [|discriminate]. cbn [bind] in *.
  destruct (pydiv (s_py s) (s_f s)) as [iy|]; [|discriminate]. cbn [bind] in *.
  destruct (mtf_image o) as [im|]; [|discriminate]. cbn [bind] in *.
  destruct (giqe5_RER _ _ _ _) as [[r0 r9]|]; [|discriminate]. cbn [bind] in *.
  destruct (elev_angle _ _) as [el|]; [|discriminate]. cbn [bind] in *.
  unfold giqe5 in *. apply ok_inj in H. subst m1.
  eexists. split; [reflexivity|]. cbn [f_contrast f_slant f_otf f_rer_0 f_rer_90 f_rer f_gsd_x f_elev f_gsd_w].
  repeat (split; [reflexivity|]). intros k m [E | E]; apply pair_equal_spec in E; destruct E as [-> ->]; reflexivity.
Qed.
Lemma stack_niirs5 ni it diag s c itp n s1 c1 m1 : niirs5 ni it diag s c itp = (s1, c1, Ok m1) ->
  exists m2, niirs5 ni it diag (with_frames s n) c itp = (with_frames s1 n, c1, Ok m2) /\
    f_contrast m2 = f_contrast m1 /\ f_slant m2 = f_slant m1 /\ f_otf m2 = f_otf m1 /\ f_rer_0 m2 = f_rer_0 m1 /\ f_rer_90 m2 = f_rer_90 m1 /\
    f_rer m2 = f_rer m1 /\ f_gsd_x m2 = f_gsd_x m1 /\ f_elev m2 = f_elev m1 /\ f_gsd_w m2 = f_gsd_w m1 /\
    (0 < s_frames s -> s_frames s < n -> forall x, m_snr (ct_snr (f_contrast m1)) = Fin x ->
     forall v1 r, f_niirs m1 = Fin v1 -> f_rer m1 = Fin r ->
       (0 < x -> r <= 1.9 -> exists v2, f_niirs m2 = Fin v2 /\ v1 < v2) /\ (x < 0 -> r <= 1 -> exists v2, f_niirs m2 = Fin v2 /\ v2 < v1)).
Proof.
  intros H. destruct (stack_run5 ni it diag s c itp n s1 c1 m1 H) as (m2 & H2 & E1 & E2 & E3 & E4 & E5 & E6 & E7 & E8 & E9 & R).
  exists m2. repeat (split; [assumption|]). intros F1 F2 x Hx v1 r Hv Hr. rewrite Hx in R.
  assert (A := R _ _ (or_introl eq_refl)). assert (B := R _ _ (or_intror eq_refl)). clear R.
  rewrite xsqrt_fin, xmul_fin in A, B by lra. rewrite Hv in A. symmetry in A.
  destruct (stack_order (s_frames s) n x F1 F2) as (O1 & O2 & O3).
  assert (D : x <> 0 -> exists A0, 0 < r /\ v1 = A0 + h5 (log10 r) (/ (sqrt (s_frames s) * x)) /\
      f_niirs m2 = Fin (A0 + h5 (log10 r) (/ (sqrt n * x)))).
  { intros X. destruct (O3 X) as [Z1 Z2]. destruct (giqe5_finite _ _ _ _ _ _ _ _ Z1 A) as (A0 & r' & Er' & Pr & V & K).
    rewrite Hr in Er'. apply fin_inj in Er'. subst r'. exists A0. split; [exact Pr|]. split; [exact V|].
    rewrite (K _ Z2) in B. apply (f_equal (fun p => fst (fst p))) in B. exact B. }
  split; intros X Hr1; destruct (D ltac:(lra)) as (A0 & Pr & -> & ->); eexists; (split; [reflexivity|]).
  - destruct (O1 X) as [P O]. destruct (stack_order (s_frames s) n x F1 F2) as (_ & _ & _).
    assert (S2 : 0 < / (sqrt n * x)) by (apply Rinv_0_lt_compat; apply Rmult_lt_0_compat; [apply sqrt_lt_R0; lra | exact X]).
    assert (Q := h5_strict (log10 r) _ _ (log10_19 r (conj Pr Hr1)) (Rlt_le _ _ S2) O). lra.
  - destruct (O2 X) as [P O].
    assert (S2 : / (sqrt n * x) < 0) by (apply Rinv_lt_0_compat; assert (0 < sqrt n) by (apply sqrt_lt_R0; lra); nra).
    assert (L0 : log10 r <= 0).
    { replace 0 with (log10 1) by (unfold log10; rewrite ln_1; unfold Rdiv; ring). apply log10_le; lra. }
    assert (Q := h5_strict_neg (log10 r) _ _ L0 O (Rlt_le _ _ S2)). lra.
Qed.
