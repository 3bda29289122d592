(** * Proof_TradeDemo: cameras with a bright and with a dark target *)
From Coq Require Import Reals Lra List Lia ZArith Psatz Bool Sorted.
From Verif Require Import Base_XR Base_Np Base_NpFacts Base_Interp Model_Geo Model_Noise Model_Db Model_Scenario Model_Sensor Model_Rad Model_Otf Model_Img Model_Met
  Spec_Noise Spec_Rad Spec_System Spec_Met Spec_Quality Spec_Trade Proof_Db Proof_Rad Proof_Snr Proof_RadP Proof_Contrast Proof_Niirs Proof_MetX Proof_NiirsDemo Proof_Trade.
Import ListNotations.
Open Scope R_scope.

Lemma demo_exposes k lo hi n : exposes (demo_cam k lo hi n).
Proof. unfold exposes. cbn. repeat split; lra. Qed.
Definition demo_row (i : nat) : arow := {| a_wl := wavelength i; a_trans := 1; a_path := 1; a_surf := 1; a_scat := 1; a_grnd := 1 |}.
Lemma demo_in i : (i < n_wave)%nat -> In (demo_row i) (atm_rows demo_m).
Proof. intros H. unfold atm_rows. apply in_map_iff. exists i. split; [reflexivity|]. apply in_seq. lia. Qed.
Lemma demo_sees k i0 hi n : (S i0 < n_wave)%nat -> wavelength (S i0) <= hi -> sees_ground (demo_cam k (wavelength i0) hi n) (atm_rows demo_m).
Proof.
  intros Hi Hh. assert (L := wavelength_step i0 Hi).
  exists (demo_row i0), (demo_row (S i0)), 1, 1. split; [apply demo_in; lia|]. split; [apply demo_in; lia|].
  split. { exists (wavelength i0), hi. cbn. repeat split; try reflexivity; lra. }
  split. { exists (wavelength i0), hi. cbn. repeat split; try reflexivity; lra. }
  split; [cbn; lra|].
  split. { exact (reads_node [wavelength i0; hi] [1; 1] (wavelength i0) 0 ltac:(cbn; lia) eq_refl). }
  split. { exact (reads_node [wavelength i0; hi] [1; 1] (wavelength i0) 0 ltac:(cbn; lia) eq_refl). }
  cbn. lra.
Qed.
Lemma visible_short k n a : In a (atm_rows demo_m) -> in_band (visible k n) a -> a_wl a <= 4 / 10 ^ 6.
Proof. intros _ (lo & hi & _ & H & B). cbn in H. injection H as <-. lra. Qed.
Lemma wl11 : wavelength 11 <= 7 / 10 ^ 7.
Proof. rewrite (demo_wavelength 11 11); [lra | pose proof n_wave_ge; lia | cbn; lra]. Qed.
Lemma visible_sees k n : sees_ground (visible k n) (atm_rows demo_m).
Proof. apply demo_sees; [pose proof n_wave_ge; lia | exact wl11]. Qed.

(** ** A thermal detector behind optics that also pass 2.8 microns, at night *)
Definition night_cam : sensor := {|
  s_D := 0.3; s_f := 4; s_px := 8 / 10 ^ 6; s_py := 8 / 10 ^ 6; s_wx := 8 / 10 ^ 6; s_wy := 8 / 10 ^ 6; s_eta := 0.4;
  s_owl := [2.8 / 10 ^ 6; 12 / 10 ^ 6]; s_otr := [1; 1]; s_qwl := [7.99 / 10 ^ 6; 8 / 10 ^ 6; 12 / 10 ^ 6]; s_qe := [0; 1; 1];
  s_int_time := 0.03; s_dark := 0; s_other_irr := 0; s_read := 25; s_max_n := 96000;
  s_max_fill := 0.6; s_bits := 11.9; s_ntdi := 1;
  s_T_shield := 70; s_T_opt := 270; s_e_opt := 0; s_t_filt := 1; s_T_filt := 70; s_e_filt := 0;
  s_sx := 0; s_sy := 0; s_dax := 0; s_day := 0; s_pv := 0; s_pv_wl := 0.633 / 10 ^ 6;
  s_Lx := 1; s_Ly := 1; s_other_noise := [0]; s_kernel := [[1]]; s_frames := 1 |}.
(* clear air, no sunlight and no path radiance *)
Definition night_m : atm := fun i j => match j with O => wavelength i | S O => 1 | _ => 0 end.
Definition night_load : loader := fun _ _ _ => Ok night_m.
Lemma night_loaded itp : loaded night_load night_load demo_scen itp night_m.
Proof. unfold loaded. destruct itp; reflexivity. Qed.
Lemma night_good : good_camera night_cam.
Proof.
  unfold good_camera. cbn. split; [|split; [|split]].
  - constructor; cbn; try lra; try (intros x Hx; repeat (destruct Hx as [<-|Hx]; [lra|]); destruct Hx).
    repeat split; try discriminate; reflexivity.
  - split; repeat (constructor; try lra).
  - unfold good_optics. cbn. repeat split; lra.
  - repeat split; lra.
Qed.
Lemma night_row a : In a (atm_rows night_m) -> exists i, (i < n_wave)%nat /\
  a = {| a_wl := wavelength i; a_trans := 1; a_path := 0; a_surf := 0; a_scat := 0; a_grnd := 0 |}.
Proof. unfold atm_rows. intros H. apply in_map_iff in H. destruct H as (i & <- & Hi). apply in_seq in Hi. exists i. split; [lia | reflexivity]. Qed.
Lemma night_in i : (i < n_wave)%nat -> In {| a_wl := wavelength i; a_trans := 1; a_path := 0; a_surf := 0; a_scat := 0; a_grnd := 0 |} (atm_rows night_m).
Proof. intros H. unfold atm_rows. apply in_map_iff. exists i. split; [reflexivity|]. apply in_seq. lia. Qed.
Lemma night_sound : sound_rows (atm_rows night_m).
Proof. intros a Ha. destruct (night_row a Ha) as (i & Hi & ->). cbn. pose proof (wavelength_pos i Hi). repeat split; lra. Qed.
Lemma night_sorted : StronglySorted Rlt (map a_wl (atm_rows night_m)).
Proof. unfold atm_rows. rewrite map_map. cbn [a_wl]. apply sorted_seq. intros i j H1 H2. apply wavelength_lt; lia. Qed.
Lemma night_em : false = true <-> emissive_band night_cam.
Proof. unfold emissive_band. cbn. split; [discriminate | lra]. Qed.
Lemma night_band a : in_band night_cam a <-> 2.8 / 10 ^ 6 <= a_wl a <= 12 / 10 ^ 6.
Proof.
  split.
  - intros (lo & hi & A & B & H). cbn in A, B. injection A as <-. injection B as <-. exact H.
  - intros H. exists (2.8 / 10 ^ 6), (12 / 10 ^ 6). cbn. auto.
Qed.
Lemma wl771 : wavelength 771 = 8.01 / 10 ^ 6.
Proof.
  rewrite (demo_wavelength 771 771); [lra | | rewrite INR_IZR_INZ; reflexivity].
  apply Nat.ltb_lt. vm_compute. reflexivity.
Qed.
Lemma in771 : (771 < n_wave)%nat.
Proof. apply Nat.ltb_lt. vm_compute. reflexivity. Qed.
Lemma night_trans : reads [2.8 / 10 ^ 6; 12 / 10 ^ 6] [1; 1] (8 / 10 ^ 6) 1.
Proof.
  assert (H := reads_between [2.8 / 10 ^ 6; 12 / 10 ^ 6] [1; 1] (8 / 10 ^ 6) 0 ltac:(cbn; lia) ltac:(cbn; lra)). cbn [nth] in H.
  replace (1 + (1 - 1) * ((8 / 10 ^ 6 - 2.8 / 10 ^ 6) / (12 / 10 ^ 6 - 2.8 / 10 ^ 6))) with 1 in H; [exact H|].
  rewrite Rminus_eq_0. ring.
Qed.
Lemma night_atm : good_atmosphere night_cam false (atm_rows night_m).
Proof.
  split; [exact night_sound|]. split; [exact night_sorted|]. pose proof in771 as I.
  assert (Ia := night_in 770 ltac:(lia)). set (a := {| a_wl := wavelength 770; a_trans := 1; a_path := 0; a_surf := 0; a_scat := 0; a_grnd := 0 |}) in *.
  assert (W : a_wl a = 8 / 10 ^ 6) by exact wl770.
  exists a, 1, 1. split; [exact Ia|]. split; [apply night_band; rewrite W; lra|]. rewrite W.
  split.
  { exact night_trans. }
  split. { exact (reads_node [7.99 / 10 ^ 6; 8 / 10 ^ 6; 12 / 10 ^ 6] [0; 1; 1] (8 / 10 ^ 6) 1 ltac:(cbn; lia) eq_refl). }
  unfold electrons. cbn [night_cam s_wx s_wy s_t_filt s_eta s_D s_f].
  assert (C := cone_pos 0.3 4).
  assert (T : 0 < giqe_target false a).
  { unfold giqe_target, scene_radiance. cbn [a a_path a_scat a_wl a_trans a_grnd].
    assert (0 < planck (wavelength 770) 282) by (apply planck_pos; [rewrite wl770|]; lra). lra. }
  assert (0 <= self_irradiance night_cam (8 / 10 ^ 6)).
  { rewrite <- Proof_RadP.self_eq. apply other_nonneg; [apply night_good | lra]. }
  assert (0 < photon_energy (8 / 10 ^ 6)) by (unfold photon_energy, h_planck, c_light; lra).
  assert (0 < cone 0.3 4 * giqe_target false a) by (apply Rmult_lt_0_compat; lra).
  apply Rdiv_lt_0_compat; [|assumption]. apply Rmult_lt_0_compat; [lra|].
  replace (1 * (1 - 0.4 ^ 2) * 1 * cone 0.3 4 * giqe_target false a) with (0.84 * (cone 0.3 4 * giqe_target false a)) by lra. lra.
Qed.
Lemma planck_280 lam : 7.99 / 10 ^ 6 <= lam <= 12 / 10 ^ 6 -> 0.85 * planck lam 282 < 0.93 * planck lam 280.
Proof.
  intros [H0 H4]. unfold planck. destruct (Req_EM_T 280 0); [lra|]. destruct (Req_EM_T 282 0); [lra|].
  set (b := h_planck * c_light / (lam * k_boltz)).
  assert (PL : 0 < lam * k_boltz) by (apply Rmult_lt_0_compat; [lra | unfold k_boltz; lra]).
  assert (HB : b * (lam * k_boltz) = h_planck * c_light) by (unfold b; field; split; [unfold k_boltz; lra | lra]).
  assert (Hb : 1198 <= b <= 1801).
  { split.
    - apply Rmult_le_reg_r with (lam * k_boltz); [exact PL|]. rewrite HB.
      apply Rle_trans with (1198 * (12 / 10 ^ 6 * k_boltz)); [|unfold h_planck, c_light, k_boltz; lra].
      apply Rmult_le_compat_l; [lra|]. apply Rmult_le_compat_r; [unfold k_boltz; lra | exact H4].
    - apply Rmult_le_reg_r with (lam * k_boltz); [exact PL|]. rewrite HB.
      apply Rle_trans with (1801 * (7.99 / 10 ^ 6 * k_boltz)); [unfold h_planck, c_light, k_boltz; lra|].
      apply Rmult_le_compat_l; [lra|]. apply Rmult_le_compat_r; [unfold k_boltz; lra | exact H0]. }
  assert (E : forall T, T <> 0 -> h_planck * c_light / (lam * k_boltz * T) = b / T).
  { intros T HT. unfold b. field. repeat split; try lra. unfold k_boltz; lra. }
  rewrite !E by lra.
  set (A := 2 * h_planck * c_light ^ 2 / lam ^ 5).
  assert (PA : 0 < A). { unfold A. apply Rdiv_lt_0_compat; [unfold h_planck, c_light; lra | apply pow_lt; lra]. }
  assert (Y : 4 <= exp (b / 282) - 1).
  { assert (1 + b / 282 <= exp (b / 282)) by apply exp_ineq1_le. lra. }
  assert (X : exp (b / 280) = exp (b / 282) * exp (b * (1 / 39480))) by (rewrite <- exp_plus; f_equal; lra).
  assert (Q : 1 <= exp (b * (1 / 39480)) <= 1.05).
  { split; [assert (1 + b * (1 / 39480) <= exp (b * (1 / 39480))) by apply exp_ineq1_le; lra|].
    assert (I : 1 + - (b * (1 / 39480)) <= exp (- (b * (1 / 39480)))) by apply exp_ineq1_le.
    assert (J : exp (- (b * (1 / 39480))) * exp (b * (1 / 39480)) = 1) by (rewrite <- exp_plus; rewrite Rplus_opp_l; apply exp_0).
    pose proof (exp_pos (b * (1 / 39480))). set (p := exp (- (b * (1 / 39480)))) in *. set (q := exp (b * (1 / 39480))) in *.
    assert (0.954 <= p) by lra. assert (0.954 * q <= p * q) by (apply Rmult_le_compat_r; lra). lra. }
  set (y := exp (b / 282)) in *. set (r := exp (b * (1 / 39480))) in *. rewrite X.
  assert (Z0 : y * 1 <= y * r) by (apply Rmult_le_compat_l; lra). assert (Z1 : y * r <= y * 1.05) by (apply Rmult_le_compat_l; lra).
  apply Rmult_lt_reg_r with ((y * r - 1) * (y - 1)); [apply Rmult_lt_0_compat; lra|].
  replace (0.93 * (A / (y * r - 1)) * ((y * r - 1) * (y - 1))) with (A * (0.93 * (y - 1))) by (field; lra).
  replace (0.85 * (A / (y - 1)) * ((y * r - 1) * (y - 1))) with (A * (0.85 * (y * r - 1))) by (field; lra).
  apply Rmult_lt_compat_l; [exact PA | lra].
Qed.
Lemma night_qe lam : qe_at night_cam lam = 0 \/ (7.99 / 10 ^ 6 <= lam <= 12 / 10 ^ 6 /\ 0 <= qe_at night_cam lam).
Proof.
  destruct (Rlt_dec lam (7.99 / 10 ^ 6)) as [L | L].
  - left. unfold qe_at. apply reads_interp; [discriminate | reflexivity | apply night_good |].
    apply reads_below. cbn. intros w [<-|[<-|[<-|[]]]]; lra.
  - destruct (Rlt_dec (12 / 10 ^ 6) lam) as [U | U].
    + left. unfold qe_at. apply reads_interp; [discriminate | reflexivity | apply night_good |].
      apply reads_above. cbn. intros w [<-|[<-|[<-|[]]]]; lra.
    + right. split; [lra|]. apply qe_nonneg, night_good.
Qed.
Lemma night_dark : exists c1 mt x, niirs night_load night_load no_diag night_cam demo_scen false = (c1, Ok mt) /\
  m_snr (ct_snr (n_contrast mt)) = Fin x /\ x < 0.
Proof.
  destruct (niirs_total night_load night_load no_diag night_cam demo_scen false night_m false (night_loaded _) night_good night_em night_atm) as (c1 & mt & x & _ & E & _ & _ & X & _);
    [cbn; lra | cbn; lra |].
  exists c1, mt, x. split; [exact E|]. split; [exact X|].
  destruct (niirs_standard night_load night_load no_diag night_cam demo_scen false night_m false (night_loaded _) (proj1 night_good) (proj1 (proj2 night_good)) night_em night_sound c1 mt E)
    as (rows & [Si So] & EM & _). specialize (So night_sorted).
  destruct (snr_sign night_cam rows (giqe_target false) (giqe_background false) (ct_snr (n_contrast mt)) (proj1 night_good)) with (3 := EM) as (x' & g & X' & V & _ & G); [|exact So|].
  { intros a Ha. assert (K := night_sound a (proj1 (proj1 (Si a) Ha))). split; [apply K|].
    pose proof (background_sound false a K). pose proof (target_sound false a K). lra. }
  rewrite X in X'. apply fin_inj in X'. subst x'.
  assert (GT : forall i, (i < n_wave)%nat -> 7.99 / 10 ^ 6 <= wavelength i <= 12 / 10 ^ 6 ->
    let a := {| a_wl := wavelength i; a_trans := 1; a_path := 0; a_surf := 0; a_scat := 0; a_grnd := 0 |} in giqe_target false a < giqe_background false a).
  { intros i Hi Hw. assert (P := planck_280 (wavelength i) Hw). unfold giqe_target, giqe_background, scene_radiance.
    cbn [a_path a_scat a_wl a_trans a_grnd]. lra. }
  assert (D : forall a, In a rows -> dN_at night_cam (a_wl a) (giqe_target false a) <= dN_at night_cam (a_wl a) (giqe_background false a)).
  { intros a Ha. apply Si in Ha. destruct Ha as [Ia Ba]. destruct (night_row a Ia) as (i & Hi & Ea).
    destruct (night_qe (a_wl a)) as [Z | [W Q]].
    - unfold dN_at, dN1. rewrite Z. lra.
    - apply dN_at_mono; [apply night_good | apply (night_sound a Ia)|]. pose proof (target_sound false a (night_sound a Ia)).
      split; [lra|]. left. subst a. apply GT; assumption. }
  destruct (rate_order night_cam rows (giqe_background false) (giqe_target false) D So) as [_ O].
  assert (O' := O ltac:(
    pose proof in771 as I7;
    assert (Ia := night_in 770 ltac:(lia)); assert (Ib := night_in 771 ltac:(lia));
    eexists; eexists; split; [apply Si; split; [exact Ia | apply night_band; cbn [a_wl]; rewrite wl770; lra]|];
    split; [apply Si; split; [exact Ib | apply night_band; cbn [a_wl]; rewrite wl771; lra]|];
    split; [cbn [a_wl]; rewrite wl770, wl771; lra|];
    apply dN_strict; cbn [a_wl night_cam s_wx s_wy]; [rewrite wl770; lra | lra | lra | | | apply GT; [lia | rewrite wl770; lra]];
    rewrite wl770;
    [ unfold trans_at; cbn [night_cam s_t_filt s_eta s_owl s_otr];
      rewrite (reads_interp [2.8 / 10 ^ 6; 12 / 10 ^ 6] [1; 1] (8 / 10 ^ 6) 1);
        [lra | discriminate | reflexivity | apply night_good |
         exact night_trans]
    | unfold qe_at; cbn [night_cam s_qwl s_qe];
      rewrite (reads_interp [7.99 / 10 ^ 6; 8 / 10 ^ 6; 12 / 10 ^ 6] [0; 1; 1] (8 / 10 ^ 6) 1);
        [lra | discriminate | reflexivity | apply night_good |
         exact (reads_node [7.99 / 10 ^ 6; 8 / 10 ^ 6; 12 / 10 ^ 6] [0; 1; 1] (8 / 10 ^ 6) 1 ltac:(cbn; lia) eq_refl)] ])).
  rewrite V. specialize (G ltac:(cbn; lra) ltac:(cbn; lra) ltac:(cbn; lra)). nra.
Qed.
(** ** Forms used by the property theorems *)
Section Sign.
  Variables (ni it : loader) (diag : nat -> nat -> bool) (s : sensor) (c : scen) (itp : bool) (m : atm) (em : bool).
  Hypothesis Hload : loaded ni it c itp m.
  Hypothesis P : physical s.
  Hypothesis T : sorted_tables s.
  Hypothesis Hem : em = true <-> emissive_band s.
  Hypothesis Sr : sound_rows (atm_rows m).
  Hypothesis Ss : StronglySorted Rlt (map a_wl (atm_rows m)).
  Hypothesis Hb : emissive_band s \/ forall a, In a (atm_rows m) -> in_band s a -> a_wl a <= 4 / 10 ^ 6.
  Lemma bright_niirs ct : (exists c1 mt, niirs ni it diag s c itp = (c1, Ok mt) /\ ct = n_contrast mt) \/
      (exists s1 c1 mt, niirs5 ni it diag s c itp = (s1, c1, Ok mt) /\ ct = f_contrast mt) ->
    exists x, m_snr (ct_snr ct) = Fin x /\ 0 <= x /\ (exposes s -> sees_ground s (atm_rows m) -> 0 < x).
  Proof.
    intros H. apply (bright_contrast s (atm_rows m) em P T Sr Ss).
    - destruct Hb as [B | B]; [left; apply Hem, B | right; exact B].
    - destruct H as [(c1 & mt & E & ->) | (s1 & c1 & mt & E & ->)].
      + apply (niirs_standard ni it diag s c itp m em Hload P T Hem Sr c1 mt E).
      + apply (niirs5_standard ni it diag s c itp m em Hload P T Hem Sr s1 c1 mt E).
  Qed.
End Sign.
Lemma bright_cases ni it diag s c itp m : loaded ni it c itp m -> physical s -> sorted_tables s ->
  sound_rows (atm_rows m) -> StronglySorted Rlt (map a_wl (atm_rows m)) ->
  emissive_band s \/ (forall a, In a (atm_rows m) -> in_band s a -> a_wl a <= 4 / 10 ^ 6) ->
  forall ct, (exists c1 mt, niirs ni it diag s c itp = (c1, Ok mt) /\ ct = n_contrast mt) \/
      (exists s1 c1 mt, niirs5 ni it diag s c itp = (s1, c1, Ok mt) /\ ct = f_contrast mt) ->
    exists x, m_snr (ct_snr ct) = Fin x /\ 0 <= x /\ (exposes s -> sees_ground s (atm_rows m) -> 0 < x).
Proof.
  intros Hl P T Sr Ss Hb ct H. destruct (Rle_dec (2.9 / 10 ^ 6) (nth 0 (s_owl s) 0)) as [D | D].
  - apply (bright_niirs ni it diag s c itp m true); auto. split; auto.
  - apply (bright_niirs ni it diag s c itp m false); auto. split; [discriminate | contradiction].
Qed.
Lemma always_bright_refuted : ~ forall ni it diag s c itp m, loaded ni it c itp m -> good_camera s ->
  good_atmosphere s false (atm_rows m) -> ~ emissive_band s ->
  forall c1 mt x, niirs ni it diag s c itp = (c1, Ok mt) -> m_snr (ct_snr (n_contrast mt)) = Fin x -> 0 <= x.
Proof.
  intros F. destruct night_dark as (c1 & mt & x & E & X & N).
  specialize (F _ _ _ _ _ _ _ (night_loaded _) night_good night_atm ltac:(intros B; apply night_em in B; discriminate) c1 mt x E X). lra.
Qed.
Lemma visible_bright : exists c1 mt x, niirs demo_load demo_load no_diag (visible sharpen 1) demo_scen false = (c1, Ok mt) /\
  m_snr (ct_snr (n_contrast mt)) = Fin x /\ 0 < x.
Proof.
  destruct order_matters as (mt & c1 & d & e & E & _).
  destruct (bright_cases demo_load demo_load no_diag (visible sharpen 1) demo_scen false demo_m (demo_loaded _) (proj1 (visible_good _ _)) (proj1 (proj2 (visible_good _ _)))
    (proj1 (visible_atm sharpen 1)) (proj1 (proj2 (visible_atm sharpen 1))) (or_intror (visible_short _ _)) (n_contrast mt)) as (x & X & _ & H).
  - left. exists c1, mt. auto.
  - exists c1, mt, x. split; [exact E|]. split; [exact X|]. apply H; [apply demo_exposes | apply visible_sees].
Qed.
Lemma more_read s : s_other_noise s = [0] -> s_read s = 25 -> electronic_noise s < electronic_noise (with_noise s 50 (s_bits s) [0]).
Proof. intros H R. unfold electronic_noise. cbn [with_noise s_max_n s_bits s_read s_other_noise]. rewrite H, R. cbn. lra. Qed.
