(** * Proof_BaselineDemo: the camera estimated for a picture of 18 m pixels taken from 9 km *)
From Coq Require Import Reals Lra List Lia ZArith Psatz Bool Sorted.
From Verif Require Import Base_XR Base_Np Model_Geo Model_Noise Model_Scenario Model_Sensor Model_Rad Model_Db Model_Otf Model_Img Model_Met Model_Sim
  Spec_Rad Spec_Img Spec_Blur Spec_System Spec_Met Spec_Sim Spec_Centre Proof_Rad Proof_RadP Proof_Snr Proof_Weight Proof_Sensor Proof_Native Proof_NiirsDemo Proof_SimDemo Proof_Baseline.
Import ListNotations.
Open Scope R_scope.

Definition shot : ref_image := {| ri_img := [0; 20; 40; 100; 120; 140]; ri_gsd := 18; ri_pix := [10; 110]; ri_refl := [0.1; 0.9] |}.
Definition violet : arow := {| a_wl := wavelength 8; a_trans := 1; a_path := 1; a_surf := 1; a_scat := 1; a_grnd := 1 |}.
Lemma violet_edge : wavelength 8 = 380 / 10 ^ 9.
Proof. rewrite (demo_wavelength 8 8); [lra| unfold n_wave; lia | rewrite INR_IZR_INZ; reflexivity]. Qed.
Lemma violet_in : In violet (atm_rows demo_m).
Proof. unfold atm_rows. apply in_map_iff. exists 8%nat. split; [reflexivity|]. apply in_seq. unfold n_wave. lia. Qed.

Lemma shot_camera : exists s w, estimate_capture_parameters shot 9000 = Ok (s, w) /\ observe demo_load demo_load w = Ok demo_m /\
  sr_gsd demo_ref = ri_gsd shot /\ good_scene s (atm_rows demo_m) /\ (exists tr q, response_curves s tr q) /\
  forall tr q, response_curves s tr q -> shortest_seen s tr q (atm_rows demo_m) violet.
Proof.
  destruct (capture_ok shot 9000 ltac:(cbn; lra) ltac:(lra)) as (s & w & H & _).
  destruct (capture_good shot 9000 s w ltac:(cbn; lra) ltac:(lra) H) as (GC & _ & _).
  assert (V := violet_edge). assert (P0 : 0 < wavelength 8) by lra.
  assert (TB : s_owl s = [380 / 10 ^ 9; 700 / 10 ^ 9] /\ s_otr s = [1; 1] /\ s_qwl s = s_owl s /\ s_qe s = [1; 1] /\ s_eta s = 0 /\ s_t_filt s = 1 /\
    0 < s_wx s /\ 0 < s_wy s /\ observe demo_load demo_load w = Ok demo_m).
  { clear GC. unfold estimate_capture_parameters in H.
    destruct (pydiv _ (ri_gsd shot)) as [f|]; [|discriminate]. cbn [bind] in H.
    destruct (pydiv _ f) as [x|]; [|discriminate]. cbn [bind] in H.
    destruct (xdiv _ _) as [D| | |]; try discriminate.
    unfold sensor_init in H. rewrite pydiv_ok in H by lra. cbn [bind] in H. apply ok_inj in H. injection H as <- <-.
    cbn [s_owl s_otr s_qwl s_qe s_eta s_t_filt s_wx s_wy k_t_filt default_kw]. repeat split; try reflexivity; lra. }
  destruct TB as (T1 & T2 & T3 & T4 & T5 & T6 & T7 & T8 & Ob).
  assert (Bd : in_band s violet).
  { exists (380 / 10 ^ 9), (700 / 10 ^ 9). rewrite T1. cbn [violet a_wl]. repeat split; try reflexivity; rewrite V; lra. }
  assert (R1 : reads (s_owl s) (s_otr s) (a_wl violet) 1).
  { rewrite T1, T2. cbn [violet a_wl]. rewrite V. exact (reads_node [380 / 10 ^ 9; 700 / 10 ^ 9] [1; 1] (380 / 10 ^ 9) 0 ltac:(cbn; lia) eq_refl). }
  assert (R2 : reads (s_qwl s) (s_qe s) (a_wl violet) 1).
  { rewrite T3, T4, T1. cbn [violet a_wl]. rewrite V. exact (reads_node [380 / 10 ^ 9; 700 / 10 ^ 9] [1; 1] (380 / 10 ^ 9) 0 ltac:(cbn; lia) eq_refl). }
  assert (EL : 0 < electrons s 1 1 (a_wl violet) (scene_radiance 1 300 violet)).
  { unfold electrons. rewrite T5, T6.
    assert (C := cone_pos (s_D s) (s_f s)).
    assert (L : 0 < scene_radiance 1 300 violet) by (unfold scene_radiance, violet; cbn [a_path a_scat a_trans a_grnd]; lra).
    assert (0 <= self_irradiance s (a_wl violet)).
    { rewrite <- Proof_RadP.self_eq. apply other_nonneg; [apply GC | exact P0]. }
    assert (0 < photon_energy (a_wl violet)).
    { unfold photon_energy. apply Rdiv_lt_0_compat; [|exact P0]. unfold h_planck, c_light. lra. }
    assert (0 < cone (s_D s) (s_f s) * scene_radiance 1 300 violet) by (apply Rmult_lt_0_compat; lra).
    apply Rdiv_lt_0_compat; [|assumption]. assert (0 < s_wx s * s_wy s) by (apply Rmult_lt_0_compat; lra).
    rewrite ?Rmult_1_l, ?Rmult_1_r. replace (1 - 0 ^ 2) with 1 by ring. rewrite ?Rmult_1_l, ?Rmult_1_r.
    apply Rmult_lt_0_compat; [lra|]. lra. }
  exists s, w. split; [exact H|]. split; [exact Ob|]. split; [reflexivity|]. split; [|split].
  - split; [exact demo_sound|]. split; [exact demo_sorted_rows|]. exists violet, 1, 1.
    split; [exact violet_in|]. split; [exact Bd|]. split; [exact R1|]. split; [exact R2|exact EL].
  - destruct GC as (Ph & St & _). exists (tr_of s), (q_of s). apply curves_exist; [apply Ph | exact St].
  - intros tr q (Rt & Rq). split.
    + split; [exact violet_in|]. split; [exact Bd|].
      replace (tr (a_wl violet)) with 1; [replace (q (a_wl violet)) with 1; [exact EL|]|].
      * apply (reads_unique (s_qwl s) (s_qe s) (a_wl violet)); [rewrite T3, T1; discriminate | rewrite T3, T1, T4; reflexivity | apply GC | exact R2 | apply Rq].
      * apply (reads_unique (s_owl s) (s_otr s) (a_wl violet)); [rewrite T1; discriminate | rewrite T1, T2; reflexivity | apply GC | exact R1 | apply Rt].
    + intros b (_ & (lo & hi & B1 & _ & B2) & _). rewrite T1 in B1. cbn in B1. injection B1 as <-. cbn [violet a_wl]. rewrite V. apply B2.
Qed.
