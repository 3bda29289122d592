(** * Proof_Trade: noise, blur and turbulence against the ratings *)
From Coq Require Import Reals Lra List Lia ZArith Psatz Bool Sorted.
From Verif Require Import Base_XR Base_Np Base_NpFacts Base_Interp Model_Geo Model_Noise Model_Db Model_Scenario Model_Sensor Model_Rad Model_Otf Model_Img Model_Met
  Spec_Geo Spec_Noise Spec_Rad Spec_Filter Spec_System Spec_Met Spec_Quality Spec_Trade Proof_Geo Proof_Noise Proof_Rad Proof_Snr Proof_Pe Proof_RadP
  Proof_Filter Proof_Weight Proof_System Proof_Slice Proof_Edge Proof_Giqe Proof_Contrast Proof_Niirs Proof_MetX.
Import ListNotations.
Open Scope R_scope.

(** ** More electronic noise *)
(* the same detection with other noise terms *)
Definition renoise (M : snr_metrics) (q tot snr : xr) : snr_metrics := {|
  m_opt_trans := m_opt_trans M; m_qe := m_qe M; m_other_irr := m_other_irr M;
  m_tgt_rate := m_tgt_rate M; m_tgt_irr := m_tgt_irr M; m_weights := m_weights M; m_tgt_n := m_tgt_n M;
  m_bkg_rate := m_bkg_rate M; m_bkg_irr := m_bkg_irr M; m_bkg_n := m_bkg_n M;
  m_int_time := m_int_time M; m_well_fraction := m_well_fraction M; m_contrast := m_contrast M;
  m_signal_noise := m_signal_noise M; m_dark_noise := m_dark_noise M; m_quant_noise := q; m_self_noise := m_self_noise M;
  m_total_noise := tot; m_snr := snr |}.
Definition recontrast (ct : contrast) (M : snr_metrics) : contrast := {|
  ct_snr := M; ct_path_noise := ct_path_noise ct; ct_scene_noise := ct_scene_noise ct;
  ct_wl := ct_wl ct; ct_w := ct_w ct; ct_cutoff := ct_cutoff ct; ct_df := ct_df ct; ct_pts := ct_pts ct |}.

Lemma snr_renoise s r b o wl t k M : photon_detector_SNR s wl t k = Ok M ->
  exists q tot x, photon_detector_SNR (with_noise s r b o) wl t k = Ok (renoise M q tot x).
Proof.
  intros H. unfold photon_detector_SNR in *.
  change (sensor_opt_trans (with_noise s r b o) wl) with (sensor_opt_trans s wl).
  change (sensor_qe (with_noise s r b o) wl) with (sensor_qe s wl).
  change (sensor_other_irradiance (with_noise s r b o) wl) with (sensor_other_irradiance s wl).
  cbn [with_noise s_D s_f s_wx s_wy s_dark s_int_time s_ntdi s_max_fill s_max_n s_bits s_read s_other_noise].
  destruct (sensor_opt_trans s wl) as [tr|]; [|discriminate]. cbn [bind] in *.
  destruct (sensor_qe s wl) as [q|]; [|discriminate]. cbn [bind] in *.
  destruct (sensor_other_irradiance s wl) as [ot|]; [|discriminate]. cbn [bind] in *.
  destruct (signal_rate wl t _ _ _ _ _ _ _ _) as [[[r1 i1] w1]|]; [|discriminate]. cbn [bind] in *.
  destruct (signal_rate wl k _ _ _ _ _ _ _ _) as [[[r2 i2] w2]|]; [|discriminate]. cbn [bind] in *.
  destruct (photon_detection_rate _ _ _ _ _) as [dn|]; [|discriminate]. cbn [bind] in *.
  destruct (trapz dn _) as [tz|]; [|discriminate]. cbn [bind] in *.
  apply ok_inj in H. subst M. do 3 eexists. reflexivity.
Qed.
Lemma contrast_renoise s r b o rows z ct : contrast_part s rows z = Ok ct ->
  exists q tot x, contrast_part (with_noise s r b o) rows z = Ok (recontrast ct (renoise (ct_snr ct) q tot x)).
Proof.
  intros H. unfold contrast_part in *. destruct (giqe_radiance rows z) as [tgt bkg].
  destruct (photon_detector_SNR s (map a_wl rows) tgt bkg) as [M|] eqn:E; [|discriminate]. cbn [bind] in H.
  destruct (snr_renoise s r b o _ _ _ _ E) as (q & tot & x & ->). cbn [bind]. unfold photon_noise in *.
  cbn [renoise m_opt_trans m_qe m_other_irr m_tgt_irr m_bkg_irr m_weights m_int_time].
  cbn [with_noise s_D s_f s_wx s_wy s_ntdi].
  repeat match type of H with
    | (let* x := ?b in _) = _ => destruct b as [?|]; [cbn [bind] in *|discriminate H]
    | (let (_, _) := ?g in _) = _ => destruct g as [? ?] end.
  apply ok_inj in H. subst ct. exists q, tot, x. reflexivity.
Qed.
Lemma niirs_renoise ni it diag s c itp r b o c1 m1 : niirs ni it diag s c itp = (c1, Ok m1) ->
  exists m2 q tot x, niirs ni it diag (with_noise s r b o) c itp = (c1, Ok m2) /\
    n_contrast m2 = recontrast (n_contrast m1) (renoise (ct_snr (n_contrast m1)) q tot x) /\
    n_slant m2 = n_slant m1 /\ n_otf m2 = n_otf m1 /\ n_rer m2 = n_rer m1 /\ n_eho m2 = n_eho m1 /\ n_ng m2 = n_ng m1 /\
    n_gsd_gm m2 = n_gsd_gm m1 /\ n_elev m2 = n_elev m1 /\ n_gsd_gp m2 = n_gsd_gp m1 /\
    (exists w, noise_gain (concat (s_kernel s)) = Ok w /\ n_ng m1 = w) /\
    (forall m, m = m1 \/ m = m2 -> let snr := xmul (xsqrt (Fin (s_frames s))) (m_snr (ct_snr (n_contrast m))) in
       n_niirs m = giqe3 (n_rer m1) (n_gsd_gm m1) (n_eho m1) (n_ng m1) snr /\
       n_niirs_4 m = fst (giqe4 (n_rer m1) (n_gsd_gm m1) (n_eho m1) (n_ng m1) snr (n_elev m1))) /\
    exists rows, load_band ni it s c itp = Ok rows /\ contrast_part s rows (fst (bookkeeping s c)) = Ok (n_contrast m1) /\
      contrast_part (with_noise s r b o) rows (fst (bookkeeping s c)) = Ok (n_contrast m2).
Proof.
  intros H. unfold niirs in *. change (load_band ni it (with_noise s r b o) c itp) with (load_band ni it s c itp).
  destruct (load_band ni it s c itp) as [rows|]; [|discriminate].
  change (bookkeeping (with_noise s r b o) c) with (bookkeeping s c). destruct (bookkeeping s c) as [z c'].
  injection H as <- H. destruct (contrast_part s rows z) as [ct|] eqn:E; [|discriminate]. cbn [bind] in H.
  destruct (contrast_renoise s r b o _ _ _ E) as (q & tot & x & E'). rewrite E'. cbn [bind].
  unfold niirs_rest in *. cbn [with_noise s_px s_py s_f s_kernel s_frames recontrast ct_snr ct_pts ct_wl ct_w ct_df renoise m_int_time m_snr].
  destruct (finite (curved_earth_slant_range _ _ _)) as [sl|]; [|discriminate]. cbn [bind] in *.
  destruct (finite (m_int_time _)) as [t|]; [|discriminate]. cbn [bind] in *.
  change (common_OTFs diag Np (with_noise s r b o)) with (common_OTFs diag Np s).
  destruct (common_OTFs _ _ _ _ _ _ _ _ _) as [om|]; [|discriminate]. cbn [bind] in *.
  destruct (pydiv (s_px s) (s_f s)) as [ix|]; [|discriminate]. cbn [bind] in *.
  destruct (pydiv (s_py s) (s_f s)) as [iy|]; [|discriminate]. cbn [bind] in *.
  destruct (mtf_image om) as [im|]; [|discriminate]. cbn [bind] in *.
  destruct (giqe_edge_terms _ _ _ _) as [[rer eho]|]; [|discriminate]. cbn [bind] in *.
  destruct (noise_gain _) as [ng|]; [|discriminate]. cbn [bind] in *.
  destruct (elev_angle _ _) as [el|]; [|discriminate]. cbn [bind] in *.
  unfold giqe4 in *. destruct (if xle (Fin 0.9) rer then _ else _) as [k1 k2] eqn:K. apply ok_inj in H. subst m1.
  eexists. exists q, tot, x. split; [reflexivity|]. cbn [n_contrast n_slant n_otf n_rer n_eho n_ng n_gsd_gm n_elev n_gsd_gp n_niirs n_niirs_4].
  repeat (split; [reflexivity|]). split; [exists ng; split; reflexivity|].
  split.
  - intros m [-> | ->]; cbn [n_niirs n_niirs_4 n_contrast recontrast ct_snr renoise m_snr]; rewrite K; split; reflexivity.
  - exists rows. split; [reflexivity|]. split; [exact E | exact E'].
Qed.
Lemma niirs5_renoise ni it diag s c itp r b o s1 c1 m1 : niirs5 ni it diag s c itp = (s1, c1, Ok m1) ->
  exists m2 q tot x, niirs5 ni it diag (with_noise s r b o) c itp = (with_noise s1 r b o, c1, Ok m2) /\
    f_contrast m2 = recontrast (f_contrast m1) (renoise (ct_snr (f_contrast m1)) q tot x) /\
    f_slant m2 = f_slant m1 /\ f_otf m2 = f_otf m1 /\ f_rer_0 m2 = f_rer_0 m1 /\ f_rer_90 m2 = f_rer_90 m1 /\ f_rer m2 = f_rer m1 /\
    f_gsd_x m2 = f_gsd_x m1 /\ f_elev m2 = f_elev m1 /\ f_gsd_w m2 = f_gsd_w m1 /\
    (forall m, m = m1 \/ m = m2 -> (f_niirs m, f_gsd_w m, f_rer m)
       = giqe5 (f_rer_0 m1) (f_rer_90 m1) (Fin (f_gsd_x m1)) (xmul (xsqrt (Fin (s_frames s))) (m_snr (ct_snr (f_contrast m)))) (f_elev m1)) /\
    exists rows, load_band ni it s c itp = Ok rows /\ contrast_part s rows (fst (bookkeeping s c)) = Ok (f_contrast m1) /\
      contrast_part (with_noise s r b o) rows (fst (bookkeeping s c)) = Ok (f_contrast m2).
Proof.
  intros H. unfold niirs5 in *. change (load_band ni it (with_noise s r b o) c itp) with (load_band ni it s c itp).
  destruct (load_band ni it s c itp) as [rows|]; [|discriminate].
  change (bookkeeping (with_noise s r b o) c) with (bookkeeping s c). destruct (bookkeeping s c) as [z c'].
  destruct (contrast_part s rows z) as [ct|] eqn:E; [|discriminate]. cbv zeta in H. injection H as <- <- H.
  destruct (contrast_renoise s r b o _ _ _ E) as (q & tot & x & E'). rewrite E'. cbv zeta.
  change (no_sharpening (with_noise s r b o)) with (with_noise (no_sharpening s) r b o).
  unfold niirs5_rest in *. cbn [with_noise no_sharpening s_px s_py s_f s_kernel s_frames recontrast ct_snr ct_pts ct_wl ct_w ct_df renoise m_int_time m_snr] in *.
  destruct (finite (curved_earth_slant_range _ _ _)) as [sl|]; [|discriminate]. cbn [bind] in *.
  destruct (finite (m_int_time _)) as [t|]; [|discriminate]. cbn [bind] in *.
  change (common_OTFs diag Np (with_noise (no_sharpening s) r b o)) with (common_OTFs diag Np (no_sharpening s)).
  destruct (common_OTFs _ _ _ _ _ _ _ _ _) as [om|]; [|discriminate]. cbn [bind] in *.
  destruct (pydiv (s_px s) (s_f s)) as [ix|]; [|discriminate]. cbn [bind] in *.
  destruct (pydiv (s_py s) (s_f s)) as [iy|]; [|discriminate]. cbn [bind] in *.
  destruct (mtf_image om) as [im|]; [|discriminate]. cbn [bind] in *.
  destruct (giqe5_RER _ _ _ _) as [[r0 r90]|]; [|discriminate]. cbn [bind] in *.
  destruct (elev_angle _ _) as [el|]; [|discriminate]. cbn [bind] in *.
  unfold giqe5 in *. apply ok_inj in H. subst m1.
  eexists. exists q, tot, x. split; [reflexivity|]. cbn [f_contrast f_slant f_otf f_rer_0 f_rer_90 f_rer f_gsd_x f_gsd_w f_elev].
  repeat (split; [reflexivity|]).
  split; [intros m [-> | ->]; reflexivity|]. exists rows. split; [reflexivity|]. split; [exact E | exact E'].
Qed.

Lemma quant_sq n b q : 0 < n -> 0 < b -> quantization_noise n b = Fin q -> q * q = (n / (Rpower 2 b - 1)) ^ 2 / 12.
Proof.
  intros Hn Hb. unfold quantization_noise.
  assert (1 < Rpower 2 b) by (rewrite <- (Rpower_O 2) by lra; apply Rpower_lt; lra).
  assert (S : 0 < sqrt 12) by (apply sqrt_lt_R0; lra).
  assert (0 < sqrt 12 * (Rpower 2 b - 1)) by (apply Rmult_lt_0_compat; lra).
  rewrite xdiv_fin by lra. intros E. injection E as <-.
  assert (Q : sqrt 12 * sqrt 12 = 12) by (apply sqrt_sqrt; lra).
  replace (n / (Rpower 2 b - 1)) with (n / (sqrt 12 * (Rpower 2 b - 1)) * sqrt 12) by (field; lra).
  replace ((n / (sqrt 12 * (Rpower 2 b - 1)) * sqrt 12) ^ 2) with ((n / (sqrt 12 * (Rpower 2 b - 1))) ^ 2 * (sqrt 12 * sqrt 12)) by ring.
  rewrite Q. field. lra.
Qed.
Lemma physical_noise s r b o : physical s -> 0 < b -> physical (with_noise s r b o).
Proof. intros [] H. constructor; assumption. Qed.
Lemma frac_order x v w : 0 < v -> v <= w -> (0 < x -> 0 < x / sqrt w <= x / sqrt v) /\ (x < 0 -> x / sqrt v <= x / sqrt w < 0) /\
  (x = 0 -> x / sqrt w = 0) /\ (v < w -> 0 < x -> x / sqrt w < x / sqrt v) /\ (0 < x / sqrt v -> 0 < x) /\ (x / sqrt v < 0 -> x < 0) /\ (x / sqrt v = 0 -> x = 0).
Proof.
  intros Hv Hw. assert (S : 0 < sqrt v) by (apply sqrt_lt_R0; lra). assert (T : sqrt v <= sqrt w) by (apply sqrt_le_1_alt; lra).
  assert (I : 0 < / sqrt w <= / sqrt v) by (split; [apply Rinv_0_lt_compat; lra | apply Rinv_le_contravar; lra]).
  assert (J : v < w -> / sqrt w < / sqrt v).
  { intros H. apply Rinv_lt_contravar; [|apply sqrt_lt_1_alt; lra]. apply Rmult_lt_0_compat; lra. }
  set (a := / sqrt v) in *. set (b := / sqrt w) in *. unfold Rdiv. fold a b.
  repeat split; intros; nra.
Qed.
Lemma snr_noise s r b o wl rt rb M M' : physical s -> 0 < b -> positive_wavelengths wl -> ascending wl ->
  length rt = length wl -> length rb = length wl -> all_nonneg rt -> all_nonneg rb ->
  photon_detector_SNR s wl (map Fin rt) (map Fin rb) = Ok M ->
  photon_detector_SNR (with_noise s r b o) wl (map Fin rt) (map Fin rb) = Ok M' ->
  electronic_noise s <= electronic_noise (with_noise s r b o) ->
  exists x1 x2, m_snr M = Fin x1 /\ m_snr M' = Fin x2 /\
    (0 < x1 -> 0 < x2 <= x1) /\ (x1 < 0 -> x1 <= x2 < 0) /\ (x1 = 0 -> x2 = 0) /\
    (electronic_noise s < electronic_noise (with_noise s r b o) -> 0 < x1 -> x2 < x1).
Proof.
  intros P Hb Hw Ha L1 L2 N1 N2 E E' En.
  destruct (snr_value s wl rt rb P Hw Ha L1 L2 N1 N2) as (M1 & q & EM & Eq & Pq & K). rewrite E in EM. apply ok_inj in EM. subst M1.
  destruct (snr_value (with_noise s r b o) wl rt rb (physical_noise s r b o P Hb) Hw Ha L1 L2 N1 N2) as (M2 & q' & EM & Eq' & Pq' & K').
  rewrite E' in EM. apply ok_inj in EM. subst M2. cbv zeta in K, K'.
  destruct K as (V & _ & _ & _ & _ & _ & S & _). destruct K' as (V' & _ & _ & _ & _ & _ & S' & _).
  match type of S with m_snr M = Fin (?a / sqrt ?v) => set (x := a) in *; set (v0 := v) in * end.
  match type of S' with m_snr M' = Fin (?a / sqrt ?v) => change a with x in S'; set (w0 := v) in * end.
  apply quant_sq in Eq; [|apply (ph_max_n _ P) | apply (ph_bits _ P)].
  cbn [with_noise s_max_n s_bits] in Eq'. apply quant_sq in Eq'; [|apply (ph_max_n _ P) | exact Hb].
  assert (D : w0 - v0 = electronic_noise (with_noise s r b o) - electronic_noise s).
  { unfold w0, v0, electronic_noise. cbn [with_noise s_max_n s_bits s_read s_other_noise].
    match goal with |- context [?a + q' * q'] => set (A := a) end.
    match goal with |- context [?a + q * q] => change a with A end.
    rewrite Eq, Eq'.
    rewrite (map_ext (fun x0 : R => x0 ^ 2) (fun x0 => x0 * x0) (fun x0 => eq_trans (f_equal (Rmult x0) (Rmult_1_r x0)) eq_refl) o).
    rewrite (map_ext (fun x0 : R => x0 ^ 2) (fun x0 => x0 * x0) (fun x0 => eq_trans (f_equal (Rmult x0) (Rmult_1_r x0)) eq_refl) (s_other_noise s)). ring. }
  destruct (frac_order x v0 w0 V ltac:(lra)) as (F1 & F2 & F3 & F4 & F5 & F6 & F7).
  exists (x / sqrt v0), (x / sqrt w0). split; [exact S|]. split; [exact S'|].
  split; [intros H; apply F1, F5, H|]. split; [intros H; apply F2, F6, H|]. split; [intros H; apply F3, F7, H|].
  intros H1 H2. apply F4; [lra | apply F5, H2].
Qed.

(** ** Ratings against the signal to noise ratio *)
(* whatever the other inputs, as long as the rating is finite *)
Lemma xsub_fin_inv a b v : xsub a (Fin b) = Fin v -> exists x, a = Fin x /\ v = x - b.
Proof. destruct a; cbn; try discriminate. intros E. injection E as <-. exists r. split; [reflexivity | ring]. Qed.
Lemma giqe3_finite r g e n s v : s <> 0 -> giqe3 r g e (Fin n) (Fin s) = Fin v ->
  exists A, v = A - n / s /\ forall s', s' <> 0 -> giqe3 r g e (Fin n) (Fin s') = Fin (A - n / s').
Proof.
  intros Hs. unfold giqe3. rewrite xdiv_fin by auto. intros E. apply xsub_fin_inv in E. destruct E as (A & E & ->).
  exists A. split; [reflexivity|]. intros s' Hs'. rewrite xdiv_fin by auto. rewrite E, xsub_fin. reflexivity.
Qed.
Lemma giqe4_finite r g e n s a v : s <> 0 -> fst (giqe4 r g e (Fin n) (Fin s) a) = Fin v ->
  exists A, v = A - 0.334 * n / s /\ forall s', s' <> 0 -> fst (giqe4 r g e (Fin n) (Fin s') a) = Fin (A - 0.334 * n / s').
Proof.
  intros Hs. unfold giqe4. destruct (if xle (Fin 0.9) r then _ else _) as [k1 k2]. cbn [fst].
  rewrite xmul_fin, xdiv_fin by auto. intros E. apply xsub_fin_inv in E. destruct E as (A & E & ->).
  exists A. split; [reflexivity|]. intros s' Hs'. rewrite xdiv_fin by auto. rewrite E, xsub_fin. reflexivity.
Qed.
Lemma over_order n k x y : 0 <= n -> 0 < k -> (0 < y <= x -> n / (k * x) <= n / (k * y)) /\ (x <= y < 0 -> n / (k * y) <= n / (k * x)).
Proof.
  intros Hn Hk. split; intros H.
  - apply ratio_le; nra.
  - assert (n / (k * - x) <= n / (k * - y)) by (apply ratio_le; nra).
    replace (n / (k * - x)) with (- (n / (k * x))) in H0 by (field; lra).
    replace (n / (k * - y)) with (- (n / (k * y))) in H0 by (field; lra). lra.
Qed.

(* the signal to noise part of giqe5; L is the log of the edge response *)
Definition h5 (L y : R) : R := 3.32 * (1 - exp (-1.9 * y)) * L - 1.8 * y.
Lemma h5_anti L y z : L <= 0.28 -> 0 <= y -> y <= z -> h5 L z <= h5 L y.
Proof.
  intros HL Hy Hz. unfold h5.
  assert (E1 : exp (-1.9 * z) <= exp (-1.9 * y)). { destruct Hz as [Hz | <-]; [left; apply exp_increasing; lra | lra]. }
  assert (E2 : exp (-1.9 * y) - exp (-1.9 * z) <= 1.9 * (z - y)).
  { assert (P : 0 < exp (-1.9 * y) <= 1).
    { split; [apply exp_pos|]. rewrite <- exp_0. destruct Hy as [Hy | <-]; [left; apply exp_increasing; lra | rewrite Rmult_0_r; lra]. }
    replace (exp (-1.9 * z)) with (exp (-1.9 * y) * exp (- (1.9 * (z - y)))) by (rewrite <- exp_plus; f_equal; lra).
    assert (Q : 1 + - (1.9 * (z - y)) <= exp (- (1.9 * (z - y)))).
    { apply exp_ineq1_le. }
    set (p := exp (-1.9 * y)) in *. set (d := exp (- (1.9 * (z - y)))) in *. nra. }
  set (d := exp (-1.9 * y) - exp (-1.9 * z)) in *.
  assert (D0 : 0 <= d) by (unfold d; lra).
  assert (d * L <= 0.54 * (z - y)); [|unfold d in *; lra].
  destruct (Rle_dec L 0) as [N | N].
  - assert (d * L <= d * 0) by (apply Rmult_le_compat_l; lra). lra.
  - apply Rle_trans with (1.9 * (z - y) * 0.28); [|lra]. apply Rmult_le_compat; lra.
Qed.
Lemma h5_neg L y z : L <= 0 -> z <= y -> y <= 0 -> h5 L y <= h5 L z.
Proof.
  intros HL Hz Hy. unfold h5.
  assert (E1 : exp (-1.9 * y) <= exp (-1.9 * z)). { destruct Hz as [Hz | <-]; [left; apply exp_increasing; lra | lra]. }
  assert ((exp (-1.9 * z) - exp (-1.9 * y)) * L <= 0) by nra. lra.
Qed.
Lemma log10_19 r : 0 < r <= 1.9 -> log10 r <= 0.28.
Proof.
  intros [H0 H]. apply Rle_trans with (log10 1.9); [apply log10_le; lra|]. unfold log10.
  assert (P := ln10_pos). apply Rmult_le_reg_r with (25 * ln 10); [lra|].
  replace (ln 1.9 / ln 10 * (25 * ln 10)) with (25 * ln 1.9) by (field; lra). replace (0.28 * (25 * ln 10)) with (7 * ln 10) by lra.
  replace 25 with (INR 25) by (cbn; lra). replace 7 with (INR 7) by (cbn; lra). rewrite <- !ln_pow by lra.
  assert (L : 1.9 ^ 25 <= 10 ^ 7) by lra.
  destruct L as [L | ->]; [left; apply ln_increasing; [apply pow_lt; lra | exact L] | lra].
Qed.
Lemma xadd_inv a b v : xadd a b = Fin v -> exists x y, a = Fin x /\ b = Fin y /\ v = x + y.
Proof. destruct a, b; cbn; try discriminate. intros E. injection E as <-. eauto. Qed.
Lemma xsub_inv a b v : xsub a b = Fin v -> exists x y, a = Fin x /\ b = Fin y /\ v = x - y.
Proof. destruct a, b; cbn; try discriminate. intros E. injection E as <-. eauto. Qed.
Lemma xmul_inv a b v : xmul a b = Fin v -> exists x y, a = Fin x /\ b = Fin y /\ v = x * y.
Proof.
  destruct a, b; cbn; try discriminate; try (unfold inf_sgn; repeat rcase; discriminate). intros E. injection E as <-. eauto.
Qed.
Lemma xlog10_inv a v : xlog10 a = Fin v -> exists r, a = Fin r /\ 0 < r /\ v = log10 r.
Proof.
  destruct a as [r| | |]; cbn; try discriminate. repeat rcase; try discriminate. intros E. injection E as <-. exists r. auto.
Qed.
Lemma giqe5_finite a b g s e v w rr : s <> 0 -> giqe5 a b g (Fin s) e = (Fin v, w, rr) ->
  exists A r, rr = Fin r /\ 0 < r /\ v = A + h5 (log10 r) (/ s) /\
    forall s', s' <> 0 -> giqe5 a b g (Fin s') e = (Fin (A + h5 (log10 r) (/ s')), w, rr).
Proof.
  intros Hs E. unfold giqe5 in *. set (gw := xdiv g _) in *. set (ra := xpow _ (1 / 3)) in *.
  assert (Ew := f_equal (fun p => snd (fst p)) E). assert (Er' := f_equal snd E). apply (f_equal (fun p => fst (fst p))) in E.
  cbn [fst snd] in E, Ew, Er'. subst w rr. apply xsub_inv in E. destruct E as (x1 & y1 & E & Y1 & ->).
  apply xsub_inv in E. destruct E as (x2 & y2 & E & Y2 & ->). apply xadd_inv in E. destruct E as (x3 & y3 & X3 & Y3 & ->).
  apply xmul_inv in Y3. destruct Y3 as (z1 & z2 & Z1 & Z2 & ->). apply xlog10_inv in Z2. destruct Z2 as (r & Er & Pr & ->).
  rewrite xdiv_fin in Y1, Z1 by auto. rewrite xexp_fin, xsub_fin, xmul_fin in Z1. apply fin_inj in Z1, Y1. subst z1 y1.
  exists (x3 - y2), r. split; [exact Er|]. split; [exact Pr|].
  split. { unfold h5. replace (-1.9 / s) with (-1.9 * / s) by (field; auto). replace (1.8 / s) with (1.8 * / s) by (field; auto). ring. }
  intros s' Hs'. rewrite Y2, X3. rewrite !xdiv_fin by auto. rewrite Er. rewrite xlog10_fin by auto. fold (log10 r).
  rewrite xexp_fin, !xsub_fin, !xmul_fin, !xadd_fin, !xsub_fin. do 3 f_equal. unfold h5.
  replace (-1.9 / s') with (-1.9 * / s') by (field; auto). replace (1.8 / s') with (1.8 * / s') by (field; auto). ring.
Qed.
Lemma inv_order x y : (0 < y <= x -> 0 < / x <= / y) /\ (x <= y < 0 -> / y <= / x < 0).
Proof.
  split; intros H.
  - split; [apply Rinv_0_lt_compat; lra | apply Rinv_le_contravar; lra].
  - assert (K : 0 < / - x <= / - y) by (split; [apply Rinv_0_lt_compat; lra | apply Rinv_le_contravar; lra]).
    rewrite !Rinv_opp in K. lra.
Qed.

Section Noise.
  Variables (ni it : loader) (diag : nat -> nat -> bool) (s : sensor) (c : scen) (itp : bool) (m : atm).
  Variables (rd bits : R) (other : list R).
  Hypothesis Hload : loaded ni it c itp m.
  Hypothesis P : physical s.
  Hypothesis Sr : sound_rows (atm_rows m).
  Hypothesis Ss : StronglySorted Rlt (map a_wl (atm_rows m)).
  Hypothesis Hb : 0 < bits.
  Let s' := with_noise s rd bits other.
  Hypothesis Hn : electronic_noise s <= electronic_noise s'.

  Lemma contrast_snr rows ct ct' : seen_rows s (atm_rows m) rows ->
    contrast_part s rows (fst (bookkeeping s c)) = Ok ct -> contrast_part s' rows (fst (bookkeeping s c)) = Ok ct' ->
    exists x1 x2, m_snr (ct_snr ct) = Fin x1 /\ m_snr (ct_snr ct') = Fin x2 /\
      (0 < x1 -> 0 < x2 <= x1) /\ (x1 < 0 -> x1 <= x2 < 0) /\ (x1 = 0 -> x2 = 0) /\
      (electronic_noise s < electronic_noise s' -> 0 < x1 -> x2 < x1).
  Proof.
    intros [Bi Bs] E E'. specialize (Bs Ss).
    assert (Sr' : sound_rows rows) by (intros a Ha; apply Sr, Bi, Ha).
    destruct (contrast_form s rows (fst (bookkeeping s c)) P Sr') as (M & t & HM & _).
    set (em := isem (fst (bookkeeping s c))) in *.
    assert (EM : ct_snr ct = M).
    { unfold contrast_part in E. rewrite giqe_radiance_fin in E by (intros a Ha; pose proof (proj1 (Sr' a Ha)); lra).
      fold em in E. rewrite HM in E. cbn [bind] in E. revert E. clear. intros E.
      repeat match type of E with
        | (let* x := ?b in _) = _ => destruct b as [?|]; [cbn [bind] in E|discriminate E]
        | (let (_, _) := ?g in _) = _ => destruct g as [? ?] end.
      apply ok_inj in E. subst ct. reflexivity. }
    assert (HM' : photon_detector_SNR s' (map a_wl rows) (map (fun a => Fin (giqe_target em a)) rows) (map (fun a => Fin (giqe_background em a)) rows) = Ok (ct_snr ct')).
    { unfold contrast_part in E'. rewrite giqe_radiance_fin in E' by (intros a Ha; pose proof (proj1 (Sr' a Ha)); lra).
      fold em in E'. destruct (photon_detector_SNR s' _ _ _) as [M'|]; [|discriminate E']. cbn [bind] in E'. f_equal. revert E'. clear. intros E.
      repeat match type of E with
        | (let* x := ?b in _) = _ => destruct b as [?|]; [cbn [bind] in E|discriminate E]
        | (let (_, _) := ?g in _) = _ => destruct g as [? ?] end.
      apply ok_inj in E. subst ct'. reflexivity. }
    rewrite EM. rewrite <- (map_map (giqe_target em) Fin), <- (map_map (giqe_background em) Fin) in HM, HM'.
    apply (snr_noise s rd bits other (map a_wl rows) (map (giqe_target em) rows) (map (giqe_background em) rows) M (ct_snr ct')); auto.
    - intros y Hy. apply in_map_iff in Hy. destruct Hy as (a & <- & Ha). apply (Sr' a Ha).
    - apply strict_ascending, Bs.
    - rewrite !map_length. reflexivity.
    - rewrite !map_length. reflexivity.
    - intros y Hy. apply in_map_iff in Hy. destruct Hy as (a & <- & Ha). pose proof (target_sound em a (Sr' a Ha)). lra.
    - intros y Hy. apply in_map_iff in Hy. destruct Hy as (a & <- & Ha). pose proof (background_sound em a (Sr' a Ha)). lra.
  Qed.

  Lemma seen_of rows : load_band ni it s c itp = Ok rows -> seen_rows s (atm_rows m) rows.
  Proof. unfold load_band. rewrite Hload. cbn [bind]. apply seen_band. Qed.
  Lemma noise_niirs c1 m1 : niirs ni it diag s c itp = (c1, Ok m1) ->
    exists m2 x1 x2, niirs ni it diag s' c itp = (c1, Ok m2) /\
      n_otf m2 = n_otf m1 /\ n_rer m2 = n_rer m1 /\ n_eho m2 = n_eho m1 /\ n_ng m2 = n_ng m1 /\
      n_gsd_gm m2 = n_gsd_gm m1 /\ n_elev m2 = n_elev m1 /\ n_gsd_gp m2 = n_gsd_gp m1 /\
      m_snr (ct_snr (n_contrast m1)) = Fin x1 /\ m_snr (ct_snr (n_contrast m2)) = Fin x2 /\
      (0 < x1 -> 0 < x2 <= x1) /\ (x1 < 0 -> x1 <= x2 < 0) /\ (x1 = 0 -> x2 = 0) /\
      (electronic_noise s < electronic_noise s' -> 0 < x1 -> x2 < x1) /\
      (0 < s_frames s -> forall rating, rating = n_niirs \/ rating = n_niirs_4 -> forall v1, rating m1 = Fin v1 ->
         (0 < x1 -> exists v2, rating m2 = Fin v2 /\ v2 <= v1) /\ (x1 < 0 -> exists v2, rating m2 = Fin v2 /\ v1 <= v2)).
  Proof.
    intros H. destruct (niirs_renoise ni it diag s c itp rd bits other c1 m1 H)
      as (m2 & q & tot & x & H2 & _ & _ & Eo & Er & Ee & En & Eg & El & Ep & (w & Ew & Enw) & R & rows & Lr & C1 & C2).
    fold s' in H2, C2. destruct (contrast_snr rows _ _ (seen_of rows Lr) C1 C2) as (x1 & x2 & X1 & X2 & O1 & O2 & O3 & O4).
    exists m2, x1, x2. repeat (split; [assumption|]). intros Hf rating Hr v1 Hv.
    assert (W : exists g, w = Fin g /\ 0 <= g).
    { unfold noise_gain in Ew. destruct (Reqb _ 1) in Ew; [|discriminate Ew]. apply ok_inj in Ew. subst w.
      eexists. split; [apply xsqrt_fin, sumsq_nonneg | apply sqrt_pos]. }
    destruct W as (g & -> & Hg). rewrite Enw in R.
    assert (F : 0 < sqrt (s_frames s)) by (apply sqrt_lt_R0; exact Hf). set (k := sqrt (s_frames s)) in *.
    destruct (R m1 (or_introl eq_refl)) as [A3 A4]. destruct (R m2 (or_intror eq_refl)) as [B3 B4].
    rewrite X1, xsqrt_fin, xmul_fin in A3, A4 by lra. rewrite X2, xsqrt_fin, xmul_fin in B3, B4 by lra. fold k in A3, A4, B3, B4.
    assert (NZ : forall y, y <> 0 -> k * y <> 0) by (intros y Hy C; apply Rmult_integral in C; lra).
    assert (Z : 0 < x1 \/ x1 < 0 -> k * x1 <> 0 /\ k * x2 <> 0 /\
      (0 < x1 -> g / (k * x1) <= g / (k * x2)) /\ (x1 < 0 -> g / (k * x2) <= g / (k * x1))).
    { intros Hx. split; [apply NZ; lra|]. split; [apply NZ; lra|].
      destruct (over_order g k x1 x2 Hg F) as [U1 U2]. split; intros Hx'; [apply U1, O1, Hx' | apply U2, O2, Hx']. }
    destruct Hr as [-> | ->].
    - rewrite Hv in A3. symmetry in A3. split; intros Hx; destruct Z as (Z1 & Z2 & Z3 & Z4); auto;
        destruct (giqe3_finite _ _ _ _ _ _ Z1 A3) as (A & -> & K); rewrite (K _ Z2) in B3; eexists; (split; [exact B3|]); [specialize (Z3 Hx) | specialize (Z4 Hx)]; lra.
    - rewrite Hv in A4. symmetry in A4. split; intros Hx; destruct Z as (Z1 & Z2 & Z3 & Z4); auto;
        destruct (giqe4_finite _ _ _ _ _ _ _ Z1 A4) as (A & -> & K); rewrite (K _ Z2) in B4; eexists; (split; [exact B4|]);
        unfold Rdiv in *; rewrite !Rmult_assoc; [specialize (Z3 Hx) | specialize (Z4 Hx)]; lra.
  Qed.
  Lemma noise_niirs5 s1 c1 m1 : niirs5 ni it diag s c itp = (s1, c1, Ok m1) ->
    exists m2 x1 x2, niirs5 ni it diag s' c itp = (with_noise s1 rd bits other, c1, Ok m2) /\
      f_otf m2 = f_otf m1 /\ f_rer_0 m2 = f_rer_0 m1 /\ f_rer_90 m2 = f_rer_90 m1 /\ f_rer m2 = f_rer m1 /\
      f_gsd_x m2 = f_gsd_x m1 /\ f_elev m2 = f_elev m1 /\ f_gsd_w m2 = f_gsd_w m1 /\
      m_snr (ct_snr (f_contrast m1)) = Fin x1 /\ m_snr (ct_snr (f_contrast m2)) = Fin x2 /\
      (0 < x1 -> 0 < x2 <= x1) /\ (x1 < 0 -> x1 <= x2 < 0) /\ (x1 = 0 -> x2 = 0) /\
      (electronic_noise s < electronic_noise s' -> 0 < x1 -> x2 < x1) /\
      (0 < s_frames s -> forall v1 r, f_niirs m1 = Fin v1 -> f_rer m1 = Fin r ->
         (0 < x1 -> r <= 1.9 -> exists v2, f_niirs m2 = Fin v2 /\ v2 <= v1) /\
         (x1 < 0 -> r <= 1 -> exists v2, f_niirs m2 = Fin v2 /\ v1 <= v2)).
  Proof.
    intros H. destruct (niirs5_renoise ni it diag s c itp rd bits other s1 c1 m1 H)
      as (m2 & q & tot & x & H2 & _ & _ & Eo & E0 & E9 & Er & Eg & El & Ep & R & rows & Lr & C1 & C2).
    fold s' in H2, C2. destruct (contrast_snr rows _ _ (seen_of rows Lr) C1 C2) as (x1 & x2 & X1 & X2 & O1 & O2 & O3 & O4).
    exists m2, x1, x2. repeat (split; [assumption|]). intros Hf v1 r Hv Hr.
    assert (F : 0 < sqrt (s_frames s)) by (apply sqrt_lt_R0; exact Hf). set (k := sqrt (s_frames s)) in *.
    assert (A := R m1 (or_introl eq_refl)). assert (B := R m2 (or_intror eq_refl)).
    rewrite X1, xsqrt_fin, xmul_fin in A by lra. rewrite X2, xsqrt_fin, xmul_fin in B by lra. fold k in A, B.
    assert (NZ : forall y, y <> 0 -> k * y <> 0) by (intros y Hy C; apply Rmult_integral in C; lra).
    rewrite Hv in A. symmetry in A.
    assert (D : x1 <> 0 -> exists A0, 0 < r /\ v1 = A0 + h5 (log10 r) (/ (k * x1)) /\
      (k * x2 <> 0 -> f_niirs m2 = Fin (A0 + h5 (log10 r) (/ (k * x2))))).
    { intros Hx. destruct (giqe5_finite _ _ _ _ _ _ _ _ (NZ _ Hx) A) as (A0 & r' & Er' & Pr & V & K).
      rewrite Hr in Er'. apply fin_inj in Er'. subst r'. exists A0. split; [exact Pr|]. split; [exact V|]. intros Hx2.
      rewrite (K _ Hx2) in B. apply (f_equal (fun p => fst (fst p))) in B. exact B. }
    split; intros Hx Hrr.
    - specialize (O1 Hx). destruct (D ltac:(lra)) as (A0 & Pr & -> & K). eexists. split; [apply K, NZ; lra|].
      apply Rplus_le_compat_l. destruct (inv_order (k * x1) (k * x2)) as [I _]. destruct I as [I1 I2]; [split; nra|].
      apply h5_anti; [apply log10_19; lra | lra | lra].
    - specialize (O2 Hx). destruct (D ltac:(lra)) as (A0 & Pr & -> & K). eexists. split; [apply K, NZ; lra|].
      apply Rplus_le_compat_l. destruct (inv_order (k * x1) (k * x2)) as [_ I]. destruct I as [I1 I2]; [split; nra|].
      apply h5_neg; [|lra | lra]. rewrite <- log10_1. apply log10_le; lra.
  Qed.
End Noise.

(** ** The standard target is brighter than the background *)
(* 0.93 / 0.85 < exp (hc/(4 um k) * (1/280 - 1/282)) *)
Lemma planck_282 lam : 0 < lam <= 4 / 10 ^ 6 -> 0.93 * planck lam 280 < 0.85 * planck lam 282.
Proof.
  intros [H0 H4]. unfold planck. destruct (Req_EM_T 280 0); [lra|]. destruct (Req_EM_T 282 0); [lra|].
  set (b := h_planck * c_light / (lam * k_boltz)).
  assert (Hb : 3596 <= b).
  { unfold b. apply Rmult_le_reg_r with (lam * k_boltz); [apply Rmult_lt_0_compat; [lra | unfold k_boltz; lra]|].
    replace (h_planck * c_light / (lam * k_boltz) * (lam * k_boltz)) with (h_planck * c_light)
      by (field; split; [unfold k_boltz; lra | lra]).
    apply Rle_trans with (3596 * (4 / 10 ^ 6 * k_boltz)); [|unfold h_planck, c_light, k_boltz; lra].
    apply Rmult_le_compat_l; [lra|]. apply Rmult_le_compat_r; [unfold k_boltz; lra | exact H4]. }
  assert (E : forall T, T <> 0 -> h_planck * c_light / (lam * k_boltz * T) = b / T).
  { intros T HT. unfold b. field. repeat split; try lra. unfold k_boltz; lra. }
  rewrite !E by lra.
  set (A := 2 * h_planck * c_light ^ 2 / lam ^ 5).
  assert (PA : 0 < A). { unfold A. apply Rdiv_lt_0_compat; [unfold h_planck, c_light; lra | apply pow_lt; exact H0]. }
  assert (Y : 0 < exp (b / 282) - 1).
  { assert (1 + b / 282 <= exp (b / 282)) by apply exp_ineq1_le. lra. }
  assert (X : exp (b / 280) = exp (b / 282) * exp (b * (1 / 39480))) by (rewrite <- exp_plus; f_equal; lra).
  assert (Q : 1.0942 <= exp (b * (1 / 39480))).
  { assert (Q1 : 1.02277 <= exp (b * (1 / 39480) / 4)).
    { assert (1 + b * (1 / 39480) / 4 <= exp (b * (1 / 39480) / 4)) by apply exp_ineq1_le. lra. }
    replace (b * (1 / 39480)) with (b * (1 / 39480) / 4 + b * (1 / 39480) / 4 + (b * (1 / 39480) / 4 + b * (1 / 39480) / 4)) by lra.
    rewrite !exp_plus. set (q := exp (b * (1 / 39480) / 4)) in *.
    assert (Q2 : 1.04605 <= q * q) by (apply Rle_trans with (1.02277 * 1.02277); [lra | apply Rmult_le_compat; lra]).
    apply Rle_trans with (1.04605 * 1.04605); [lra | apply Rmult_le_compat; lra]. }
  set (y := exp (b / 282)) in *. set (r := exp (b * (1 / 39480))) in *. rewrite X.
  assert (Z : 0 < y * r - 1) by nra.
  apply Rmult_lt_reg_r with ((y * r - 1) * (y - 1)); [apply Rmult_lt_0_compat; assumption|].
  replace (0.93 * (A / (y * r - 1)) * ((y * r - 1) * (y - 1))) with (0.93 * A * (y - 1)) by (field; lra).
  replace (0.85 * (A / (y - 1)) * ((y * r - 1) * (y - 1))) with (0.85 * A * (y * r - 1)) by (field; lra).
  assert (0.93 * (y - 1) < 0.85 * (y * r - 1)); [|nra].
  assert (1.0942 * y <= r * y) by (apply Rmult_le_compat_r; lra). nra.
Qed.
Lemma brighter em a : 0 < a_wl a -> 0 <= a_trans a -> 0 <= a_grnd a -> em = true \/ a_wl a <= 4 / 10 ^ 6 ->
  giqe_background em a <= giqe_target em a /\ (0 < a_trans a -> giqe_background em a < giqe_target em a).
Proof.
  intros Hw Ht Hg Hb. unfold giqe_background, giqe_target, scene_radiance.
  destruct em.
  - assert (P := planck_mono (a_wl a) 280 282 Hw ltac:(lra) ltac:(lra)). set (p := planck (a_wl a) 280) in *. set (q := planck (a_wl a) 282) in *.
    assert (0 <= (q - p) * a_trans a) by (apply Rmult_le_pos; lra). split; [nra|]. intros T.
    assert (0 < (q - p) * a_trans a) by (apply Rmult_lt_0_compat; lra). nra.
  - assert (P := planck_282 (a_wl a) ltac:(destruct Hb; [discriminate | lra])).
    set (p := planck (a_wl a) 280) in *. set (q := planck (a_wl a) 282) in *.
    assert (0 <= (0.85 * q - 0.93 * p) * a_trans a) by (apply Rmult_le_pos; lra). split; [nra|]. intros T.
    assert (0 < (0.85 * q - 0.93 * p) * a_trans a) by (apply Rmult_lt_0_compat; lra). nra.
Qed.
Lemma dN_diff s lam r r' : dN_at s lam r' - dN_at s lam r = lam / (hc * cc) * qe_at s lam * s_wx s * s_wy s * (trans_at s lam * (cone (s_D s) (s_f s) * (r' - r))).
Proof. unfold dN_at, dN1. ring. Qed.
Lemma fill_positive top m : 0 < m -> 0 < fill top m.
Proof. intros H. unfold fill. rcase; [apply Rdiv_lt_0_compat; lra | lra]. Qed.
(* rates compared wavelength by wavelength *)
Lemma rate_order s rows rt rb : (forall a, In a rows -> dN_at s (a_wl a) (rb a) <= dN_at s (a_wl a) (rt a)) ->
  StronglySorted Rlt (map a_wl rows) ->
  let rate r := rate_of s (fun i => nth i (map a_wl rows) 0) (fun i => nth i (map r rows) 0) (seq 0 (length rows)) in
  rate rb <= rate rt /\
  ((exists a b, In a rows /\ In b rows /\ a_wl a <> a_wl b /\ dN_at s (a_wl a) (rb a) < dN_at s (a_wl a) (rt a)) -> rate rb < rate rt).
Proof.
  intros Hr Hs rate. assert (As := strict_ascending _ Hs). set (n := length rows) in *. set (l := seq 0 n) in *.
  assert (NI : forall i, In i l -> In (nth i rows arow0) rows) by (intros i Hi; apply in_seq in Hi; apply nth_In; lia).
  set (d := fun i => dN_at s (nth i (map a_wl rows) 0) (nth i (map rt rows) 0) - dN_at s (nth i (map a_wl rows) 0) (nth i (map rb rows) 0)).
  assert (NTH : forall (f : arow -> R) i, In i l -> nth i (map f rows) 0 = f (nth i rows arow0)).
  { intros f i Hi. apply in_seq in Hi. rewrite (nth_indep _ 0 (f arow0)) by (rewrite map_length; lia). apply map_nth. }
  assert (D : rate rt - rate rb = trapezoid (map d l) (map (fun i => nth i (map a_wl rows) 0) l)).
  { unfold rate, rate_of. rewrite (trapezoid_lin 1 (-1) (fun i => dN_at s (nth i (map a_wl rows) 0) (nth i (map rt rows) 0))
      (fun i => dN_at s (nth i (map a_wl rows) 0) (nth i (map rb rows) 0)) d); [|intros; unfold d; ring]. ring. }
  assert (LL : map (fun i => nth i (map a_wl rows) 0) l = map a_wl rows).
  { unfold l, n. rewrite <- (map_length a_wl rows). symmetry. apply list_as_map. }
  assert (D0 : forall i, In i l -> 0 <= d i).
  { intros i Hi. unfold d. rewrite !NTH by exact Hi. specialize (Hr _ (NI i Hi)). lra. }
  split. { assert (0 <= rate rt - rate rb); [|lra]. rewrite D. apply trapezoid_nonneg; [exact D0 | rewrite LL; exact As]. }
  intros (a & b & Ia & Ib & Nab & Lt).
  assert (0 < rate rt - rate rb); [|lra]. rewrite D. apply In_nth with (d := arow0) in Ia. destruct Ia as (i & Hi & Ei). fold n in Hi.
  assert (Il : In i l) by (apply in_seq; lia).
  apply (trapezoid_pos d _ l i); [| exact D0 | | exact Il |].
  - unfold l. rewrite seq_length. unfold n. destruct rows as [|r0 [|r2' rest]]; cbn [length]; [destruct Ib | | lia].
    exfalso. apply Nab. destruct Ib as [<-|[]]. destruct i as [|i]; [cbn in Ei; subst; reflexivity | unfold n in Hi; cbn in Hi; lia].
  - rewrite LL. clear -Hs. induction rows as [|r0 [|r1 rest] IH]; cbn [map sascending]; auto.
    inversion Hs as [|? ? H1 H2]; subst. inversion H2; subst. split; [assumption|]. apply IH. exact H1.
  - unfold d. rewrite !NTH by exact Il. rewrite Ei. lra.
Qed.
Lemma dN_strict s lam r r' : 0 < lam -> 0 < s_wx s -> 0 < s_wy s -> 0 < trans_at s lam -> 0 < qe_at s lam -> r < r' -> dN_at s lam r < dN_at s lam r'.
Proof.
  intros W X1 X2 T U H. assert (0 < dN_at s lam r' - dN_at s lam r); [|lra]. rewrite dN_diff.
  assert (C : 0 < cone (s_D s) (s_f s)) by apply cone_pos. assert (0 < hc * cc) by (unfold hc, cc; lra).
  apply Rmult_lt_0_compat; [|apply Rmult_lt_0_compat; [exact T | apply Rmult_lt_0_compat; [exact C | lra]]].
  apply Rmult_lt_0_compat; [|exact X2]. apply Rmult_lt_0_compat; [|exact X1]. apply Rmult_lt_0_compat; [|exact U].
  apply Rdiv_lt_0_compat; assumption.
Qed.
(* the sign of the signal is the sign of the difference of the rates *)
Lemma snr_sign s rows rt rb M : physical s -> (forall a, In a rows -> 0 < a_wl a /\ 0 <= rb a /\ 0 <= rt a) ->
  StronglySorted Rlt (map a_wl rows) ->
  photon_detector_SNR s (map a_wl rows) (map (fun a => Fin (rt a)) rows) (map (fun a => Fin (rb a)) rows) = Ok M ->
  let rate r := rate_of s (fun i => nth i (map a_wl rows) 0) (fun i => nth i (map r rows) 0) (seq 0 (length rows)) in
  exists x g, m_snr M = Fin x /\ x = (rate rt - rate rb) * g /\ 0 <= g /\
    (0 < s_int_time s -> 0 < s_ntdi s -> 0 < s_max_fill s -> 0 < g).
Proof.
  intros P Hr Hs E rate. rewrite <- (map_map rt Fin), <- (map_map rb Fin) in E.
  assert (As := strict_ascending _ Hs).
  destruct (snr_value s (map a_wl rows) (map rt rows) (map rb rows) P) as (M1 & q & EM & _ & _ & K).
  - intros y Hy. apply in_map_iff in Hy. destruct Hy as (a & <- & Ha). apply (Hr a Ha).
  - exact As.
  - rewrite !map_length. reflexivity.
  - rewrite !map_length. reflexivity.
  - intros y Hy. apply in_map_iff in Hy. destruct Hy as (a & <- & Ha). specialize (Hr a Ha). lra.
  - intros y Hy. apply in_map_iff in Hy. destruct Hy as (a & <- & Ha). specialize (Hr a Ha). lra.
  - rewrite E in EM. apply ok_inj in EM. subst M1. cbv zeta in K. destruct K as (V & _ & _ & _ & _ & _ & S & _).
    rewrite map_length in S, V.
    match type of S with m_snr M = Fin ((?a - ?b) * ?c / sqrt ?v) => change a with (rate rt) in *; change b with (rate rb) in *; set (g := c) in *; set (v0 := v) in * end.
    assert (Q : 0 < / sqrt v0) by (apply Rinv_0_lt_compat, sqrt_lt_R0; exact V).
    exists ((rate rt - rate rb) * g / sqrt v0), (g * / sqrt v0). split; [exact S|]. split; [unfold Rdiv; ring|].
    pose proof (ph_time _ P). pose proof (ph_ntdi _ P). pose proof (ph_max_n _ P). pose proof (ph_max_fill _ P).
    split.
    { apply Rmult_le_pos; [|lra]. unfold g. apply Rmult_le_pos; [apply fill_bounds | ]; apply Rmult_le_pos; lra. }
    intros X3 X4 X5. apply Rmult_lt_0_compat; [|exact Q]. unfold g.
    apply Rmult_lt_0_compat; [apply fill_positive|]; apply Rmult_lt_0_compat; auto.
Qed.
Section Bright.
  Variables (s : sensor) (all : list arow) (em : bool).
  Hypothesis P : physical s.
  Hypothesis T : sorted_tables s.
  Hypothesis Sr : sound_rows all.
  Hypothesis Ss : StronglySorted Rlt (map a_wl all).
  Hypothesis Hb : em = true \/ forall a, In a all -> in_band s a -> a_wl a <= 4 / 10 ^ 6.
  Lemma bright_contrast ct : standard_contrast s all em ct ->
    exists x, m_snr (ct_snr ct) = Fin x /\ 0 <= x /\ (exposes s -> sees_ground s all -> 0 < x).
  Proof.
    intros (rows & [Si So] & E & _). specialize (So Ss).
    assert (B : forall a, In a rows -> giqe_background em a <= giqe_target em a /\ (0 < a_trans a -> giqe_background em a < giqe_target em a)).
    { intros a Ha. apply Si in Ha. destruct Ha as [Ia Ba]. destruct (Sr a Ia) as (W & A1 & A2 & A3 & A4). apply brighter; auto.
      destruct Hb as [-> | H]; auto. }
    assert (D : forall a, In a rows -> dN_at s (a_wl a) (giqe_background em a) <= dN_at s (a_wl a) (giqe_target em a)).
    { intros a Ha. destruct (Sr a (proj1 (proj1 (Si a) Ha))) as (W & A). apply dN_at_mono; auto. split; [|apply B, Ha].
      pose proof (background_sound em a (conj W A)). lra. }
    destruct (snr_sign s rows (giqe_target em) (giqe_background em) (ct_snr ct) P) with (3 := E) as (x & g & X & X0 & G0 & G1); [|exact So|].
    { intros a Ha. assert (K := Sr a (proj1 (proj1 (Si a) Ha))). split; [apply K|].
      pose proof (background_sound em a K). pose proof (target_sound em a K). lra. }
    destruct (rate_order s rows (giqe_target em) (giqe_background em) D So) as [O1 O2].
    exists x. split; [exact X|]. split; [rewrite X0; apply Rmult_le_pos; lra|].
    intros (E1 & E2 & E3 & E4 & E5 & F & He) (a & b & u & v & Ia & Ib & Ba & Bb & N & Ru & Rv & Pu & Pv & Pt).
    rewrite X0. apply Rmult_lt_0_compat; [|apply G1; auto]. apply Rlt_Rminus, O2.
    exists a, b. split; [apply Si; auto|]. split; [apply Si; auto|]. split; [exact N|].
    destruct (ph_tables _ P) as (T1 & T2 & T3 & T4). destruct T as [S1 S2].
    apply reads_interp in Ru; auto. apply reads_interp in Rv; auto.
    apply dN_strict; auto; try apply (Sr a Ia); try (apply B; [apply Si; auto | exact Pt]).
    - unfold trans_at. rewrite Ru. apply Rmult_lt_0_compat; [|exact Pu]. apply Rmult_lt_0_compat; [exact F|]. nra.
    - unfold qe_at. rewrite Rv. exact Pv.
  Qed.
End Bright.
