(** * Proof_Turn: turning the camera by a right angle *)
From Coq Require Import Reals Lra List Lia ZArith Psatz Bool Sorted.
From Verif Require Import Base_XR Base_Np Base_NpFacts Base_Interp Model_Geo Model_Noise Model_Db Model_Scenario Model_Sensor Model_Rad Model_Otf Model_Img Model_Met
  Spec_Geo Spec_Noise Spec_Otf Spec_Rad Spec_Filter Spec_System Spec_Chain Spec_Met Spec_Quality Spec_Trade Spec_Turn Proof_Geo Proof_Noise Proof_Rad Proof_Snr Proof_Pe Proof_RadP
  Proof_Turb Proof_Filter Proof_Weight Proof_System Proof_SystemX Proof_Slice Proof_Edge Proof_Giqe Proof_Contrast Proof_Niirs Proof_MetX Proof_Trade Proof_Dull Proof_DullRun.
Import ListNotations.
Open Scope R_scope.

(** ** Radiometry *)
Lemma bmap2_ext {A B C} (f g : A -> B -> C) l m : (forall x y, f x y = g x y) -> bmap2 f l m = bmap2 g l m.
Proof.
  intros H. assert (M : map2 f l m = map2 g l m).
  { revert m. induction l as [|x l IH]; intros [|y m]; cbn; auto. now rewrite H, IH. }
  unfold bmap2. rewrite M. destruct (Nat.eqb _ _); [reflexivity|].
  destruct l as [|x [|x' l]]; destruct m as [|y [|y' m]]; auto; f_equal; try (apply map_ext; intros; apply H).
Qed.
Lemma rate_turn E a b wl qe : photon_detection_rate E a b wl qe = photon_detection_rate E b a wl qe.
Proof.
  unfold photon_detection_rate. destruct (bmap2 _ _ _); [|reflexivity]. cbn [bind]. apply bmap2_ext. intros x y. do 2 f_equal. ring.
Qed.
Ltac steps := repeat match goal with |- bind ?x _ = bind ?x _ => destruct x; cbn [bind]; [|reflexivity] end.
Lemma signal_turn wl L tr D f a b qe o d : signal_rate wl L tr D f a b qe o d = signal_rate wl L tr D f b a qe o d.
Proof. unfold signal_rate. steps. rewrite (rate_turn _ a b). reflexivity. Qed.
Lemma snr_turn s wl L B : photon_detector_SNR (turned s) wl L B = photon_detector_SNR s wl L B.
Proof.
  unfold photon_detector_SNR.
  change (sensor_opt_trans (turned s)) with (sensor_opt_trans s). change (sensor_qe (turned s)) with (sensor_qe s).
  change (sensor_other_irradiance (turned s)) with (sensor_other_irradiance s).
  cbn [turned s_D s_f s_wx s_wy s_dark s_int_time s_ntdi s_max_fill s_max_n s_bits s_read s_other_noise]. steps.
  rewrite (signal_turn _ _ _ _ _ (s_wy s)). destruct (signal_rate _ _ _ _ _ (s_wx s) _ _ _ _) as [[[r i] w]|]; cbn [bind]; [|reflexivity].
  rewrite (signal_turn _ _ _ _ _ (s_wy s)). destruct (signal_rate _ _ _ _ _ (s_wx s) _ _ _ _) as [[[r' i'] w']|]; cbn [bind]; [|reflexivity].
  rewrite (rate_turn _ (s_wy s)). reflexivity.
Qed.
Lemma noise_turn s wl m irr : photon_noise (turned s) wl m irr = photon_noise s wl m irr.
Proof. unfold photon_noise. cbn [turned s_wx s_wy s_ntdi]. steps. rewrite (rate_turn _ (s_wy s)). reflexivity. Qed.
Lemma contrast_turn s l em : contrast_part (turned s) l em = contrast_part s l em.
Proof.
  unfold contrast_part. rewrite ?snr_turn. destruct (giqe_radiance l em) as [L B]. rewrite snr_turn. steps.
  rewrite !noise_turn. steps. cbn [turned s_D s_f s_wx s_wy s_ntdi].
  rewrite (signal_turn _ _ _ _ _ (s_wy s)). reflexivity.
Qed.

(** ** Transfer functions *)
Lemma mean_ext ps F G : (forall l, F l = G l) -> spectral_mean ps F = spectral_mean ps G.
Proof. intros H. unfold spectral_mean. f_equal. f_equal. apply map_ext. intros p. now rewrite H. Qed.
Lemma shift_swap u v l D : pupil_shift v u l D = pupil_shift u v l D.
Proof. unfold pupil_shift. now rewrite (Rplus_comm (v * v)). Qed.
Lemma aperture_swap D eta l u v : aperture_mtf D eta l v u = aperture_mtf D eta l u v.
Proof. unfold aperture_mtf. now rewrite shift_swap. Qed.
Lemma turbulence_swap r l D d u v : turbulence_mtf r l D d v u = turbulence_mtf r l D d u v.
Proof. unfold turbulence_mtf. now rewrite (Rplus_comm (v * v)). Qed.
Lemma good_turn s : good_optics s -> good_optics (turned s).
Proof. intros (?&?&?&?&?&?). repeat split; assumption. Qed.
Lemma camera_turn s : good_camera s -> good_camera (turned s).
Proof. intros (P & So & GO & Hf & Hx & Hy). destruct P. split; [constructor; auto|]. split; [exact So|]. split; [apply good_turn, GO|]. auto. Qed.

Section Turn.
  Variables (diag : nat -> nat -> bool) (k : skind) (s : sensor) (c : scen) (pts : list (R * R)) (ps : list (R * R)) (sl ti : R) (o o' : otfs).
  Hypothesis GS : good_spectrum ps.
  Hypothesis GO : good_optics s.
  Hypothesis GP : good_path c sl.
  Hypothesis K : (length (s_kernel s) <= 1)%nat.
  Hypothesis E : common_OTFs diag k s c pts (map fst ps) (map (fun p => Fin (snd p)) ps) sl ti = Ok o.
  Hypothesis E' : common_OTFs diag k (turned s) c pts (map fst ps) (map (fun p => Fin (snd p)) ps) sl ti = Ok o'.
  Lemma system_turn i j u v : nth_error pts i = Some (u, v) -> nth_error pts j = Some (v, u) ->
    nth_error (system_OTF o') i = nth_error (system_OTF o) j.
  Proof.
    intros Hi Hj.
    destruct (system_product _ _ _ _ _ _ _ _ _ GS GO GP E j v u Hj) as (t & f & Et & Ef & ->).
    destruct (system_product _ _ _ _ _ _ _ _ _ GS (good_turn s GO) GP E' i u v Hi) as (t' & f' & Et' & Ef' & ->).
    destruct (common_factors _ _ _ _ _ _ _ _ _ GS GO GP E j v u Hj) as (_ & _ & _ & _ & _ & G1 & _ & T1 & T2).
    destruct (common_factors _ _ _ _ _ _ _ _ _ GS (good_turn s GO) GP E' i u v Hi) as (_ & _ & _ & _ & _ & G1' & _ & T1' & T2').
    specialize (G1 K). specialize (G1' K). rewrite Ef in G1. rewrite Ef' in G1'. injection G1 as ->. injection G1' as ->.
    assert (T : t' = t).
    { destruct (Rlt_dec 0 (plain c Cn2At1m)) as [P|P].
      - destruct (T2 P) as (zp & hp & r & _ & A & B & C & _). destruct (T2' P) as (zp' & hp' & r' & _ & A' & B' & C' & _).
        rewrite A in A'. apply ok_inj in A'. assert (zp' = zp /\ hp' = hp) as [-> ->] by (split; congruence).
        rewrite B in B'. apply ok_inj, fin_inj in B'. subst r'. rewrite Et in C. rewrite Et' in C'. injection C as ->. injection C' as ->.
        apply mean_ext. intros l. apply turbulence_swap.
      - rewrite (T1 ltac:(lra)) in Et. rewrite (T1' ltac:(lra)) in Et'. congruence. }
    subst t'. cbn [turned s_D s_eta s_wx s_wy s_f s_sx s_sy s_dax s_day s_ntdi s_pv s_pv_wl s_Lx s_Ly].
    do 3 f_equal.
    rewrite (mean_ext ps (fun l => aperture_mtf (s_D s) (s_eta s) l v u) (fun l => aperture_mtf (s_D s) (s_eta s) l u v)) by (intros; apply aperture_swap).
    rewrite (mean_ext ps (fun l => wavefront_mtf (s_pv s) (s_pv_wl s) (s_Lx s) (s_Ly s) l v u) (fun l => wavefront_mtf (s_pv s) (s_pv_wl s) (s_Ly s) (s_Lx s) l u v))
      by (intros l; unfold wavefront_mtf; now rewrite (Rplus_comm ((l * v / s_Lx s) ^ 2))).
    replace (jitter_mtf_of (s_sx s) (s_sy s) v u) with (jitter_mtf_of (s_sy s) (s_sx s) u v)
      by (unfold jitter_mtf_of; now rewrite (Rplus_comm ((s_sx s * v) ^ 2))).
    ring.
  Qed.
End Turn.

(** ** The whole table *)
Lemma grid_at s rows em ct : physical s -> sound_rows rows -> contrast_part s rows em = Ok ct -> forall i j, (i <= 100)%nat -> (j <= 100)%nat ->
  nth_error (ct_pts ct) (i * 101 + j) = Some ((INR j - 50) * ct_df ct, (50 - INR i) * ct_df ct).
Proof.
  intros P Sr E i j Hi Hj. destruct (grid_shape s rows em ct P Sr E) as (_ & _ & _ & _ & _ & _ & L & G).
  rewrite <- (G i j Hi Hj). apply nth_error_nth'. rewrite L. lia.
Qed.
Lemma mirrored_lines v v' : mirrored (map Fin v) (map Fin v') -> rightwards v' = upwards v /\ upwards v' = rightwards v.
Proof.
  intros H. assert (N : forall i j, (i <= 100)%nat -> (j <= 100)%nat -> nth (i * 101 + j) v' 0 = nth ((100 - j) * 101 + (100 - i)) v 0).
  { intros i j Hi Hj. specialize (H i j Hi Hj). rewrite !nth_error_map in H.
    destruct (nth_error v' (i * 101 + j)) eqn:A; destruct (nth_error v ((100 - j) * 101 + (100 - i))) eqn:B; cbn in H; try discriminate.
    - injection H as ->. rewrite (nth_error_nth _ _ 0 A), (nth_error_nth _ _ 0 B). reflexivity.
    - apply nth_error_None in A, B. rewrite !nth_overflow by assumption. reflexivity. }
  unfold rightwards, upwards. split; apply map_ext_in; intros i Hi; apply in_seq in Hi; rewrite N by lia; do 2 f_equal; lia.
Qed.
Lemma rising_or (g : nat -> R) n : (forall k, (k < n)%nat -> g k < g (S k)) \/ (exists k, (k < n)%nat /\ g (S k) <= g k).
Proof.
  induction n as [|n [IH | (k & H & Q)]]; [left; intros; lia| |right; exists k; split; [lia | exact Q]].
  destruct (Rlt_dec (g n) (g (S n))) as [D|D].
  - left. intros k Hk. destruct (Nat.eq_dec k n) as [->|N]; [exact D | apply IH; lia].
  - right. exists n. split; [lia | lra].
Qed.
Lemma overshoot_unique mtf df ifov r r' : overshoot mtf df ifov r -> overshoot mtf df ifov r' -> r' = r.
Proof.
  intros ((k & Hk & A) & B & C) ((k' & Hk' & A') & B' & C').
  destruct (rising_or (fun k => edge_at mtf df ifov (overshoot_place k)) 8) as [Q|Q]; [rewrite (B Q), (B' Q); reflexivity|].
  specialize (C Q). specialize (C' Q). apply Rle_antisym; [rewrite A'; apply C, Hk' | rewrite A; apply C', Hk].
Qed.
(* a larger sampling distance costs 3.32 per decade *)
Lemma shift_fin a a' A B C n : xsub (xsub (xadd (Fin a) A) B) C = Fin n -> xsub (xsub (xadd (Fin a') A) B) C = Fin (n + (a' - a)).
Proof.
  destruct A as [x| | |]; destruct B as [y| | |]; destruct C as [z| | |]; cbn; try discriminate. intros H. apply fin_inj in H. f_equal. lra.
Qed.
Lemma giqe5_coarser x y g g' q e n : 0 < g -> 0 < g' -> 0 < sin e ->
  fst (fst (giqe5 x y (Fin g) q (Fin e))) = Fin n -> fst (fst (giqe5 x y (Fin g') q (Fin e))) = Fin (n + 3.32 * log10 (g / g')).
Proof.
  intros Hg Hg' He. unfold giqe5. cbn [fst]. assert (W : 0 < Rpower (sin e) 0.25) by apply exp_pos.
  assert (I : 0 < 0.0254) by lra.
  assert (F : forall h, 0 < h -> xsub (Fin 9.57) (xmul (Fin 3.32) (xlog10 (xdiv (xdiv (Fin h) (xpow (xsin (Fin e)) 0.25)) (Fin 0.0254))))
     = Fin (9.57 - 3.32 * (ln (h / Rpower (sin e) 0.25 / 0.0254) / ln 10))).
  { intros h Hh. cbn [xsin]. rewrite xpow_fin by lra. rewrite !xdiv_fin by lra. rewrite xlog10_fin; [reflexivity|].
    apply Rdiv_lt_0_compat; [apply Rdiv_lt_0_compat|]; lra. }
  rewrite !F by assumption. intros H. rewrite (shift_fin _ (9.57 - 3.32 * (ln (g' / Rpower (sin e) 0.25 / 0.0254) / ln 10)) _ _ _ _ H). f_equal. unfold log10, Rdiv. rewrite !ln_mult, ?ln_Rinv; try (repeat apply Rmult_lt_0_compat; try apply Rinv_0_lt_compat; auto; lra).
  assert (0 < ln 10) by (rewrite <- ln_1; apply ln_increasing; lra). lra.
Qed.

Section Runs.
  Variables (ni it : loader) (diag : nat -> nat -> bool) (s : sensor) (c : scen) (itp : bool) (m : atm) (em : bool).
  Hypothesis Hload : loaded ni it c itp m.
  Hypothesis Hcam : good_camera s.
  Hypothesis Hem : em = true <-> emissive_band s.
  Hypothesis Hatm : good_atmosphere s em (atm_rows m).
  Hypothesis Halt : 0 < altitude c.

  Lemma tables_turn S rows ct sl t o o' : S = s \/ S = no_sharpening s -> (length (s_kernel S) <= 1)%nat ->
    seen_rows s (atm_rows m) rows -> contrast_part s rows (fst (bookkeeping s c)) = Ok ct ->
    curved_earth_slant_range 0 (altitude c) (ground_range c) = Fin sl ->
    common_OTFs diag Np S (snd (bookkeeping s c)) (ct_pts ct) (ct_wl ct) (ct_w ct) sl t = Ok o ->
    common_OTFs diag Np (turned S) (snd (bookkeeping s c)) (ct_pts ct) (ct_wl ct) (ct_w ct) sl t = Ok o' ->
    mirrored (system_OTF o) (system_OTF o').
  Proof.
    intros HS K V E Esl Eo Eo'.
    destruct Hcam as (P & So & GO & Hf & Hpx & Hpy). destruct Hatm as (Sr & Ss & a & x & y & Ia & Ba & Rx & Ry & Pos).
    assert (Sr' : sound_rows rows) by (intros b Hb; apply Sr, V, Hb).
    destruct (contrast_shape s c m em P Hem Sr rows ct V E) as (_ & B & W).
    assert (EX : exists a, In a rows /\ 0 < dN_at s (a_wl a) (giqe_target (isem (fst (bookkeeping s c))) a)).
    { exists a. split; [apply V; split; assumption|]. rewrite bookkeeping_em, <- (emissive_iff s em Hem).
      rewrite <- (electrons_at s x y); [exact Pos | apply (ph_tables _ P) | assumption..|]. apply (Sr a Ia). }
    destruct (spectrum_good s rows (fst (bookkeeping s c)) P Sr' (proj2 V Ss) EX) as [GS _].
    destruct (niirs_path _ _ _ Halt Esl) as (P1 & P2 & P3). rewrite B, W in Eo, Eo'.
    assert (GO' : good_optics S) by (destruct HS as [-> | ->]; exact GO).
    assert (GP : good_path (snd (bookkeeping s c)) sl).
    { right. rewrite (proj1 (bookkeeping_same s c)). auto. }
    intros i j Hi Hj.
    apply (system_turn diag Np S _ (ct_pts ct) _ sl t o o' GS GO' GP K Eo Eo' _ _ ((INR j - 50) * ct_df ct) ((50 - INR i) * ct_df ct)).
    - apply (grid_at s rows _ ct P Sr' E); assumption.
    - rewrite (grid_at s rows _ ct P Sr' E) by lia. rewrite !minus_INR by lia. replace (INR 100) with 100 by (simpl; ring). do 2 f_equal; ring.
  Qed.

  Lemma atm_turn : good_atmosphere (turned s) em (atm_rows m).
  Proof.
    destruct Hatm as (Sr & Ss & a & x & y & Ia & Ba & Rx & Ry & Pos). split; [exact Sr|]. split; [exact Ss|].
    exists a, x, y. repeat split; try assumption; try apply Ba.
    replace (electrons (turned s) x y (a_wl a) (giqe_target em a)) with (electrons s x y (a_wl a) (giqe_target em a)); [exact Pos|].
    unfold electrons. change (self_irradiance (turned s)) with (self_irradiance s). cbn [turned s_D s_f s_wx s_wy s_t_filt s_eta].
    now rewrite (Rmult_comm (s_wx s) (s_wy s)).
  Qed.

  Lemma turn_niirs5 : exists m1 m2 e, 
    niirs5 ni it diag s c itp = (no_sharpening s, snd (bookkeeping s c), Ok m1) /\
    niirs5 ni it diag (turned s) c itp = (no_sharpening (turned s), snd (bookkeeping s c), Ok m2) /\
    f_contrast m2 = f_contrast m1 /\ f_slant m2 = f_slant m1 /\ f_elev m1 = Fin e /\ f_elev m2 = Fin e /\
    mirrored (system_OTF (f_otf m1)) (system_OTF (f_otf m2)) /\
    f_rer_0 m2 = f_rer_90 m1 /\ f_rer_90 m2 = f_rer_0 m1 /\ f_rer m2 = f_rer m1 /\
    f_gsd_x m2 = f_gsd_x m1 * (s_py s / s_px s) /\
    (s_px s = s_py s -> f_niirs m2 = f_niirs m1 /\ f_gsd_w m2 = f_gsd_w m1) /\
    (forall n, f_niirs m1 = Fin n -> f_niirs m2 = Fin (n + 3.32 * log10 (s_px s / s_py s))).
  Proof.
    assert (Hcam' := camera_turn s Hcam). assert (Hatm' := atm_turn).
    destruct (niirs5_succeeds ni it diag s c itp m em Hload Hcam Hem Hatm Halt) as (m1 & snr1 & r0 & r9 & e & E & Es & Ps & Eg & En & Er0 & Er9 & Ee & Se & Eq).
    destruct (niirs5_succeeds ni it diag (turned s) c itp m em Hload Hcam' Hem Hatm' Halt)
      as (m2 & snr2 & r0' & r9' & e' & E' & Es' & Ps' & Eg' & En' & Er0' & Er9' & Ee' & Se' & Eq').
    change (bookkeeping (turned s)) with (bookkeeping s) in E'.
    rewrite Es in Es'. apply fin_inj in Es'.
    destruct (niirs5_renoise ni it diag s c itp 0 0 [] _ _ _ E) as (_ & _ & _ & _ & _ & _ & _ & _ & _ & _ & _ & _ & _ & _ & _ & rows & El & Ec & _).
    destruct (niirs5_renoise ni it diag _ _ itp 0 0 [] _ _ _ E') as (_ & _ & _ & _ & _ & _ & _ & _ & _ & _ & _ & _ & _ & _ & _ & rows' & El' & Ec' & _).
    change (load_band ni it (turned s) c itp) with (load_band ni it s c itp) in El'. rewrite El in El'. apply ok_inj in El'. subst rows'.
    change (bookkeeping (turned s)) with (bookkeeping s) in Ec'. rewrite contrast_turn, Ec in Ec'. apply ok_inj in Ec'.
    assert (V : seen_rows s (atm_rows m) rows) by (unfold load_band in El; rewrite Hload in El; cbn [bind] in El; apply seen_band, El).
    destruct (niirs5_steps ni it diag s c itp m em Hload Hcam Hem Hatm Halt _ _ _ E) as (t & v & Et & Eo & Ev & Lv & S0 & S9 & Eel).
    destruct (niirs5_steps ni it diag (turned s) c itp m em Hload Hcam' Hem Hatm' Halt _ _ _ E') as (t' & v' & Et' & Eo' & Ev' & Lv' & S0' & S9' & Eel').
    cbn [turned s_px s_py s_f s_frames] in *. rewrite <- Ec' in *. rewrite Et in Et'. apply fin_inj in Et'. subst t'.
    rewrite <- Es' in *. rewrite Eel in Eel'. apply ok_inj in Eel'.
    change (no_sharpening (turned s)) with (turned (no_sharpening s)) in Eo'.
    assert (M := tables_turn (no_sharpening s) rows _ _ _ _ _ (or_intror eq_refl) ltac:(cbn; lia) V Ec Es Eo Eo').
    assert (L := M). rewrite Ev, Ev' in L. destruct (mirrored_lines v v' L) as [L1 L2].
    rewrite L1 in S0'. rewrite L2 in S9'.
    assert (X : f_rer_0 m2 = f_rer_90 m1) by congruence. assert (Y : f_rer_90 m2 = f_rer_0 m1) by congruence.
    rewrite En in En'. apply fin_inj in En'. subst snr2.
    assert (Z : Fin r0' = Fin r9) by congruence. assert (Z' : Fin r9' = Fin r0) by congruence. apply fin_inj in Z, Z'. subst r0' r9'.
    assert (e' = e) as -> by congruence.
    rewrite giqe5_sym in Eq'. destruct Hcam as (P & So & GO & Hf & Hpx & Hpy).
    assert (G : f_gsd_x m2 = f_gsd_x m1 * (s_py s / s_px s)) by (rewrite Eg, Eg'; field; lra).
    assert (G0 : 0 < f_gsd_x m1) by (rewrite Eg; apply Rmult_lt_0_compat; [apply Rdiv_lt_0_compat|]; assumption).
    assert (Q0 : 0 < s_py s / s_px s) by (apply Rdiv_lt_0_compat; assumption).
    exists m1, m2, e. split; [exact E|]. split; [exact E'|]. split; [symmetry; exact Ec'|]. split; [symmetry; exact Es'|].
    split; [exact Ee|]. split; [exact Ee'|]. split; [exact M|]. split; [exact X|]. split; [exact Y|]. split; [|split; [exact G|split]].
    - transitivity (snd (giqe5 (Fin r0) (Fin r9) (Fin (f_gsd_x m2)) (xmul (xsqrt (Fin (s_frames s))) (Fin snr1)) (Fin e))); [exact (f_equal snd Eq')|].
      symmetry. exact (f_equal snd Eq).
    - intros Hp. replace (f_gsd_x m2) with (f_gsd_x m1) in Eq' by (rewrite G, Hp; field; lra). rewrite <- Eq in Eq'. split; congruence.
    - intros n Hn. assert (N1 := f_equal (fun z => fst (fst z)) Eq). assert (N2 := f_equal (fun z => fst (fst z)) Eq'). cbn [fst] in N1, N2.
      rewrite Hn in N1. symmetry in N1.
      apply (giqe5_coarser _ _ _ (f_gsd_x m2)) in N1; [|exact G0 | rewrite G; apply Rmult_lt_0_compat; assumption | exact Se].
      cbn [fst] in N1. rewrite N2, N1. do 4 f_equal. rewrite G. field. lra.
  Qed.

  Lemma turn_niirs : (length (s_kernel s) <= 1)%nat -> Rsum (concat (s_kernel s)) = 1 -> exists m1 m2,
    niirs ni it diag s c itp = (snd (bookkeeping s c), Ok m1) /\
    niirs ni it diag (turned s) c itp = (snd (bookkeeping s c), Ok m2) /\
    n_contrast m2 = n_contrast m1 /\ n_slant m2 = n_slant m1 /\ n_elev m2 = n_elev m1 /\
    mirrored (system_OTF (n_otf m1)) (system_OTF (n_otf m2)) /\
    n_gsd_gm m2 = n_gsd_gm m1 /\ n_rer m2 = n_rer m1 /\ n_eho m2 = n_eho m1 /\ n_ng m2 = n_ng m1 /\
    n_niirs m2 = n_niirs m1 /\ n_niirs_4 m2 = n_niirs_4 m1 /\ n_gsd_gp m2 = n_gsd_gp m1.
  Proof.
    intros HK Hk. assert (Hcam' := camera_turn s Hcam). assert (Hatm' := atm_turn).
    destruct (niirs_succeeds ni it diag s c itp m em Hload Hcam Hem Hatm Halt Hk) as (m1 & snr1 & ng & E & Es & Ps & En & Eg & Eng & N0 & Nq & _ & R3 & R4).
    destruct (niirs_succeeds ni it diag (turned s) c itp m em Hload Hcam' Hem Hatm' Halt Hk)
      as (m2 & snr2 & ng' & E' & Es' & Ps' & En' & Eg' & Eng' & N0' & Nq' & _ & R3' & R4').
    change (bookkeeping (turned s)) with (bookkeeping s) in E'.
    rewrite Es in Es'. apply fin_inj in Es'.
    destruct (niirs_renoise ni it diag s c itp 0 0 [] _ _ E) as (_ & _ & _ & _ & _ & _ & _ & _ & _ & _ & _ & _ & _ & _ & _ & _ & rows & El & Ec & _).
    destruct (niirs_renoise ni it diag _ _ itp 0 0 [] _ _ E') as (_ & _ & _ & _ & _ & _ & _ & _ & _ & _ & _ & _ & _ & _ & _ & _ & rows' & El' & Ec' & _).
    change (load_band ni it (turned s) c itp) with (load_band ni it s c itp) in El'. rewrite El in El'. apply ok_inj in El'. subst rows'.
    change (bookkeeping (turned s)) with (bookkeeping s) in Ec'. rewrite contrast_turn, Ec in Ec'. apply ok_inj in Ec'.
    assert (V : seen_rows s (atm_rows m) rows) by (unfold load_band in El; rewrite Hload in El; cbn [bind] in El; apply seen_band, El).
    destruct (niirs_steps ni it diag s c itp m em Hload Hcam Hem Hatm Halt _ _ E) as (t & v & eu & ev & Et & Eo & Ev & Lv & S0 & O1 & O2 & O3 & Eel).
    destruct (niirs_steps ni it diag (turned s) c itp m em Hload Hcam' Hem Hatm' Halt _ _ E') as (t' & v' & eu' & ev' & Et' & Eo' & Ev' & Lv' & S0' & O1' & O2' & O3' & Eel').
    cbn [turned s_px s_py s_f s_frames s_kernel] in *. rewrite <- Ec' in *. rewrite Et in Et'. apply fin_inj in Et'. subst t'.
    rewrite <- Es' in *. rewrite Eel in Eel'. apply ok_inj in Eel'.
    assert (M := tables_turn s rows _ _ _ _ _ (or_introl eq_refl) HK V Ec Es Eo Eo').
    assert (L := M). rewrite Ev, Ev' in L. destruct (mirrored_lines v v' L) as [L1 L2].
    rewrite L1, L2 in S0'. rewrite L1 in O1'. rewrite L2 in O2'.
    rewrite (overshoot_unique _ _ _ _ _ O2 O1') in O3'. rewrite (overshoot_unique _ _ _ _ _ O1 O2') in O3'.
    assert (X : n_rer m2 = n_rer m1) by (rewrite S0, S0'; do 2 f_equal; ring).
    assert (Y : n_eho m2 = n_eho m1) by (rewrite O3, O3'; do 2 f_equal; ring).
    assert (Z : n_gsd_gm m2 = n_gsd_gm m1) by (rewrite Eg, Eg'; do 2 f_equal; ring).
    assert (W : n_ng m2 = n_ng m1) by (rewrite Eng, Eng'; f_equal; nra).
    rewrite En in En'. apply fin_inj in En'. subst snr2.
    rewrite X, Y, Z, W in R3', R4'. rewrite <- Eel' in R4'.
    exists m1, m2. split; [exact E|]. split; [exact E'|]. split; [symmetry; exact Ec'|]. split; [symmetry; exact Es'|].
    split; [symmetry; exact Eel'|]. split; [exact M|]. split; [exact Z|]. split; [exact X|]. split; [exact Y|]. split; [exact W|].
    split; [congruence|]. rewrite <- R4 in R4'. split; congruence.
  Qed.
End Runs.
