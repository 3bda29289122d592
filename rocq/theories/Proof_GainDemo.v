(** * Proof_GainDemo: a two-pixel reference image, its default calibration and its negative *)
From Coq Require Import Reals Lra List Lia ZArith Psatz Bool Sorted.
From Verif Require Import Base_XR Base_Np Base_Percentile Model_Geo Model_Noise Model_Db Model_Scenario Model_Sensor Model_Rad Model_Otf Model_Img Model_Met Model_Sim
  Spec_Rad Spec_Img Spec_System Spec_Met Spec_Sim Spec_Gain Proof_Rad Proof_RadP Proof_Weight Proof_Image Proof_Refl Proof_Sim Proof_NiirsDemo Proof_SimT Proof_SimP Proof_SimDemo Proof_SimX
  Proof_Gain Proof_GainSim.
Import ListNotations.
Open Scope R_scope.

Definition strip : img := {| rows := 1; cols := 2; px := fun _ j => 100 * INR j |}.
Definition strip_ref : reference := {| sr_img := strip; sr_gsd := 18; sr_pix := [0.2; 99.8]; sr_refl := [0.05; 0.95] |}.
Lemma strip_percentile q : 0 < q < 100 -> percentile (ravel strip) q = Ok q.
Proof.
  intros Hq. replace (ravel strip) with [0; 100] by (cbn; repeat f_equal; ring).
  rewrite percentile_ok by (try discriminate; lra). f_equal.
  replace (sortR [0; 100]) with [0; 100] by (unfold sortR; cbn [fold_right insertR]; rewrite (proj2 (Rleb_true 0 100)) by lra; reflexivity).
  cbn [length Nat.sub]. replace (INR 1 * (q / 100)) with (INR 0 + q / 100) by (cbn; field).
  rewrite lerp_between by (cbn; try lia; lra). cbn [nth Nat.add]. field.
Qed.
Lemma strip_init : reference_init strip 18 None None = Ok strip_ref.
Proof. unfold reference_init, ref_image_init. rewrite !strip_percentile by lra. reflexivity. Qed.
Definition demo_world : world := init 1 9000 0 false (plain demo_over).
Lemma like_run r d : good_calibration (sr_pix r) (sr_refl r) -> sr_gsd r = 18 -> nonempty (sr_img r) ->
  exists w t bl n, simulate_image demo_load demo_load no_diag d r (red_cam [[1]]) demo_world = (w, Ok (t, bl, n)).
Proof.
  intros G E N. assert (P := red_good [[1]]). destruct P as (P & St & P').
  destruct (sim_current demo_load demo_load no_diag d r (red_cam [[1]]) demo_world demo_m world_demo) as (w1 & S & A1 & A2 & A3).
  assert (GG : good_geometry (sc w1)) by (unfold good_geometry; rewrite A1, A2; exact demo_geometry).
  assert (SF : slant_flat (sc w1) = slant_flat demo_over) by (unfold slant_flat; rewrite A1, A2; reflexivity).
  assert (CO : coarse_scene (red_cam [[1]]) (sc w1) (sr_gsd r) (atm_rows demo_m)).
  { unfold coarse_scene. rewrite A1, A2, E. exact (demo_coarse [[1]]). }
  destruct (sim_coarse no_diag (red_cam [[1]]) (sc w1) r demo_m _ _ (conj P (conj St P')) GG (demo_scene _) G
    (curves_exist _ (ph_tables _ P) St) ltac:(cbn; lia) (demo_fine _) ltac:(rewrite A3; cbn; lra)
    ltac:(cbn; lra) N CO ltac:(rewrite E, SF; apply (demo_magnified [[1]])))
    as (b & T & B & T' & g & _ & _ & _ & _ & _ & _ & _ & _ & _ & H).
  destruct (H d) as (X & EX & _). exists w1, T, B, X. rewrite S, EX. reflexivity.
Qed.
Lemma strip_runs d a b : a <> 0 -> exists r', reference_init (remapped a b strip) 18 None None = Ok r' /\
  exists w t bl n, simulate_image demo_load demo_load no_diag d r' (red_cam [[1]]) demo_world = (w, Ok (t, bl, n)).
Proof.
  intros Ha. assert (L : nth 0 (sr_pix strip_ref) 0 < nth 1 (sr_pix strip_ref) 0) by (cbn; lra).
  destruct (Rlt_or_le a 0) as [Hn|Hp].
  - destruct (negative_reflectance a b strip 18 strip_ref Hn strip_init L) as (r' & _ & _ & E & _). exists r'. split; [exact E|].
    destruct (default_calibrated _ _ _ E (negative_levels _ _ _ _ _ _ Hn strip_init L E)) as (G & I & S).
    apply like_run; [exact G | exact S | rewrite I; split; cbn; lia].
  - eexists. split; [apply (reference_gain a b strip 18 strip_ref); [lra | exact strip_init]|].
    apply like_run; [|reflexivity | split; cbn; lia]. split; [reflexivity|]. split; [cbn; lia|]. cbn.
    constructor; [intros [C|[]]; nra | repeat constructor; auto].
Qed.
