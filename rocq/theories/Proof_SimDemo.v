(** * Proof_SimDemo: a camera, scene and reference image on which simulate_image succeeds *)
From Coq Require Import Reals Lra List Lia ZArith Psatz Bool Sorted.
From Verif Require Import Base_XR Base_Np Model_Geo Model_Scenario Model_Sensor Model_Rad Model_Db Model_Otf Model_Img Model_Met Model_Sim
  Spec_Rad Spec_Img Spec_System Spec_Met Spec_Sim Proof_Db Proof_Rad Proof_Snr Proof_Contrast Proof_Niirs Proof_NiirsDemo Proof_Sim Proof_SimT Proof_SimP.
Import ListNotations.
Open Scope R_scope.

Definition demo_over : scen := {| ihaze := 1; altitude := 9000; ground_range := 0; interp := false;
  plain := fun a => match a with Cn2At1m => 1.7 / 10 ^ 14 | HaWindSpeed => 21 | _ => 290 end; cache := None |}.
Definition demo_ref : reference := {|
  sr_img := {| rows := 2; cols := 3; px := fun i j => INR (100 * i + 20 * j) |}; sr_gsd := 18; sr_pix := [10; 110]; sr_refl := [0.1; 0.9] |}.
Definition red_cam (k : list (list R)) : sensor := demo_cam k (wavelength 30) (0.8 / 10 ^ 6) 1.
Lemma red_edge : wavelength 30 = 0.6 / 10 ^ 6.
Proof. rewrite (demo_wavelength 30 30); [lra| unfold n_wave; lia | rewrite INR_IZR_INZ; reflexivity]. Qed.
Lemma red_good k : good_camera (red_cam k).
Proof. apply demo_good; rewrite red_edge; lra. Qed.
Lemma demo_geometry : good_geometry demo_over.
Proof. split; cbn; [lra|]. rewrite Rabs_R0. lra. Qed.
Lemma demo_calibration : good_calibration (sr_pix demo_ref) (sr_refl demo_ref).
Proof. split; [reflexivity|]. split; [simpl; lia|]. cbn. constructor; [intros [H|[]]; lra|]. constructor; [intros []|constructor]. Qed.
Lemma demo_sound : sound_rows (atm_rows demo_m).
Proof.
  intros a Ha. unfold atm_rows in Ha. apply in_map_iff in Ha. destruct Ha as (i & <- & Hi'). apply in_seq in Hi'. cbn.
  assert (W := wavelength_pos i ltac:(lia)). repeat split; lra.
Qed.
Lemma demo_sorted_rows : StronglySorted Rlt (map a_wl (atm_rows demo_m)).
Proof. unfold atm_rows. rewrite map_map. cbn [a_wl]. apply sorted_seq. intros i j H1 H2. apply wavelength_lt; lia. Qed.
Definition red_row : arow := {| a_wl := wavelength 30; a_trans := 1; a_path := 1; a_surf := 1; a_scat := 1; a_grnd := 1 |}.
Lemma red_row_in : In red_row (atm_rows demo_m).
Proof. unfold atm_rows. apply in_map_iff. exists 30%nat. split; [reflexivity|]. apply in_seq. unfold n_wave. lia. Qed.
Lemma red_row_band k : in_band (red_cam k) red_row.
Proof. exists (wavelength 30), (0.8 / 10 ^ 6). cbn [red_cam demo_cam s_owl nth_error length Nat.sub red_row a_wl]. repeat split; try reflexivity; rewrite red_edge; lra. Qed.
Lemma demo_scene k : good_scene (red_cam k) (atm_rows demo_m).
Proof.
  assert (P0 : 0 < wavelength 30) by (rewrite red_edge; lra).
  split; [exact demo_sound|]. split; [exact demo_sorted_rows|].
  exists red_row, 1, 1. split; [exact red_row_in|]. split; [apply red_row_band|].
  split. { exact (reads_node [wavelength 30; 0.8 / 10 ^ 6] [1; 1] (wavelength 30) 0 ltac:(cbn; lia) eq_refl). }
  split. { exact (reads_node [wavelength 30; 0.8 / 10 ^ 6] [1; 1] (wavelength 30) 0 ltac:(cbn; lia) eq_refl). }
  unfold electrons. cbn [red_cam demo_cam s_wx s_wy s_t_filt s_eta s_D s_f].
  assert (C := cone_pos 0.3 4).
  assert (L : 0 < scene_radiance 1 300 red_row) by (unfold scene_radiance, red_row; cbn [a_path a_scat a_trans a_grnd]; lra).
  assert (0 <= self_irradiance (red_cam k) (a_wl red_row)).
  { rewrite <- Proof_RadP.self_eq. apply other_nonneg; [apply red_good | exact P0]. }
  assert (0 < photon_energy (a_wl red_row)).
  { unfold photon_energy. apply Rdiv_lt_0_compat; [|exact P0]. unfold h_planck, c_light. lra. }
  assert (0 < cone 0.3 4 * scene_radiance 1 300 red_row) by (apply Rmult_lt_0_compat; lra).
  apply Rdiv_lt_0_compat; [|assumption]. apply Rmult_lt_0_compat; [lra|].
  replace (1 * (1 - 0.4 ^ 2) * 1 * cone 0.3 4 * scene_radiance 1 300 red_row) with (0.84 * (cone 0.3 4 * scene_radiance 1 300 red_row)) by lra.
  unfold red_cam in *. lra.
Qed.
Lemma red_band k a : in_band (red_cam k) a -> 0.6 / 10 ^ 6 <= a_wl a <= 0.8 / 10 ^ 6.
Proof.
  intros (lo & hi & H1 & H2 & B). cbn in H1, H2. injection H1 as <-. injection H2 as <-.
  change (wavelength 30 <= a_wl a <= 0.8 / 10 ^ 6) in B. rewrite red_edge in B. exact B.
Qed.
Lemma demo_fine k : fine_detector (red_cam k) (atm_rows demo_m).
Proof.
  split; [reflexivity|]. split; [reflexivity|]. intros a _ Ba. apply red_band in Ba. cbn [red_cam demo_cam s_wx s_wy s_D s_f]. lra.
Qed.
Lemma demo_range : slant_flat demo_over = 9000.
Proof. unfold slant_flat. cbn [demo_over altitude ground_range]. replace (9000 * 9000 + 0 * 0) with (9000 * 9000) by ring. apply sqrt_square. lra. Qed.
Lemma demo_coarse k : coarse_scene (red_cam k) demo_over (sr_gsd demo_ref) (atm_rows demo_m).
Proof.
  intros a _ Ba. apply red_band in Ba. fold (slant_flat demo_over). rewrite demo_range. cbn [red_cam demo_cam s_D demo_ref sr_gsd].
  replace (18 / 2 / 9000) with (/ 1000) by lra. assert (G := atan_ge (/ 1000) ltac:(lra)). lra.
Qed.
Lemma demo_magnified k : (s_px (red_cam k) + s_py (red_cam k)) / 2 / s_f (red_cam k) <= sr_gsd demo_ref / slant_flat demo_over.
Proof. rewrite demo_range. cbn [red_cam demo_cam s_px s_py s_f demo_ref sr_gsd]. lra. Qed.
