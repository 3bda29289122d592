(** * Proof_NativeDemo: a camera over the demonstration scene whose pixels cover 18 m *)
From Coq Require Import Reals Lra List Lia ZArith Psatz Bool Sorted.
From Verif Require Import Base_XR Base_Np Model_Geo Model_Noise Model_Db Model_Scenario Model_Sensor Model_Rad Model_Otf Model_Img Model_Met Model_Sim
  Spec_Rad Spec_Img Spec_System Spec_Met Spec_Sim Spec_Trade Spec_Turn Proof_Rad Proof_RadP Proof_Weight Proof_Image Proof_Refl Proof_Sim Proof_NiirsDemo Proof_SimT Proof_SimP Proof_SimDemo Proof_SimX Proof_GainDemo.
Import ListNotations.
Open Scope R_scope.

Definition native_cam : sensor := with_pitch (red_cam [[1]]) (8 / 1000) (8 / 1000).
Lemma native_good : good_camera native_cam.
Proof.
  destruct (red_good [[1]]) as (P & St & GO & Hf & Hx & Hy). split.
  - destruct P. constructor; assumption.
  - split; [exact St|]. split; [destruct GO as (?&?&?&?&?&?); repeat split; try assumption; cbn; lra|]. cbn. repeat split; lra.
Qed.
Lemma native_match : slant_flat (sc demo_world) <> 0 /\ s_px native_cam + s_py native_cam <> 0 /\
  (s_px native_cam + s_py native_cam) / 2 * slant_flat (sc demo_world) = sr_gsd demo_ref * s_f native_cam.
Proof.
  change (sc demo_world) with demo_over. rewrite demo_range. cbn. repeat split; lra.
Qed.
Lemma native_runs d : exists w t bl n, simulate_image demo_load demo_load no_diag d demo_ref native_cam demo_world = (w, Ok (t, bl, n)).
Proof.
  assert (G := native_good). assert (P := proj1 G). assert (St := proj1 (proj2 G)).
  destruct (sim_current demo_load demo_load no_diag d demo_ref native_cam demo_world demo_m world_demo) as (w1 & S & A1 & A2 & A3).
  assert (GG : good_geometry (sc w1)) by (unfold good_geometry; rewrite A1, A2; exact demo_geometry).
  assert (SF : slant_flat (sc w1) = slant_flat demo_over) by (unfold slant_flat; rewrite A1, A2; reflexivity).
  assert (CO : coarse_scene native_cam (sc w1) (sr_gsd demo_ref) (atm_rows demo_m)).
  { unfold coarse_scene. rewrite A1, A2. exact (demo_coarse [[1]]). }
  assert (MG : (s_px native_cam + s_py native_cam) / 2 / s_f native_cam <= sr_gsd demo_ref / slant_flat (sc w1)).
  { rewrite SF, demo_range. cbn. lra. }
  assert (CA : good_calibration (sr_pix demo_ref) (sr_refl demo_ref)).
  { split; [reflexivity|]. split; [cbn; lia|]. cbn. constructor; [intros [C|[]]; lra | repeat constructor; auto]. }
  destruct (sim_coarse no_diag native_cam (sc w1) demo_ref demo_m _ _ G GG (demo_scene [[1]]) CA
    (curves_exist _ (ph_tables _ P) St) ltac:(cbn; lia) (demo_fine [[1]]) ltac:(rewrite A3; cbn; lra)
    ltac:(cbn; lra) ltac:(split; cbn; lia) CO MG)
    as (b & T & B & T' & g & _ & _ & _ & _ & _ & _ & _ & _ & _ & H).
  destruct (H d) as (X & EX & _). exists w1, T, B, X. rewrite S, EX. reflexivity.
Qed.
