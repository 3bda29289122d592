(** * Proof_SimCal: the calibration of a reference image inside simulate_image *)
From Coq Require Import Reals Lra Lia Bool List ZArith.
From Verif Require Import Base_XR Base_Np Base_Percentile Model_Geo Model_Db Model_Scenario Model_Sensor Model_Rad Model_Otf Model_Img Model_Met Model_Sim
  Spec_Rad Spec_Img Spec_System Spec_Met Spec_Sim Proof_NiirsDemo Proof_Sim Proof_SimT Proof_SimP Proof_SimDemo Proof_SimX Proof_GainDemo.
Import ListNotations.
Open Scope R_scope.

Lemma true_of_world ni it diag d r s w m w' T B X tr q : good_camera s -> good_geometry (sc w) -> observe ni it w = Ok m -> good_scene s (atm_rows m) ->
  good_calibration (sr_pix r) (sr_refl r) -> response_curves s tr q -> simulate_image ni it diag d r s w = (w', Ok (T, B, X)) ->
  exists b, seen_rows s (atm_rows m) b /\ rows T = rows (sr_img r) /\ cols T = cols (sr_img r) /\
    forall i j, exists rho, calibrated (combine (sr_pix r) (sr_refl r)) (px (sr_img r) i j) rho /\
      px T i j = collected s tr q b (exposure s tr q b) 300 (clip01 rho).
Proof.
  intros GC GG O GS GK Rc H. destruct (sim_current ni it diag d r s w m O) as (w1 & E & A & G & P). rewrite H in E.
  assert (W : w' = w1) by congruence. subst w1.
  assert (R : simulate_rest diag d s (sc w') r m = Ok (T, B, X)) by congruence.
  assert (GG' : good_geometry (sc w')) by (unfold good_geometry in *; now rewrite A, G).
  destruct (sim_pipeline_stated diag s (sc w') r m tr q GC GG' GS GK Rc) as (b & T' & ref & pe & wl & ww & otf & df & Sn & Tr & Tc & TV & _ & _ & _ & Q).
  rewrite Q in R. destruct (apply_otf_to_image _ _ _ _ _ _ _ _ _) as [[blur sp]|]; [cbn [bind] in R|discriminate R].
  destruct (add_noise d (g_noise_of s) blur) as [noisy|]; [cbn [bind] in R|discriminate R].
  assert (T' = T) by congruence. subst T'. exists b. split; [exact Sn|]. split; [exact Tr|]. split; [exact Tc|].
  intros i j. destruct (TV i j) as (_ & rho & C & V). exists rho. auto.
Qed.
Lemma true_given ni it diag d a gsd pix refl s w m tr q : good_camera s -> good_geometry (sc w) -> observe ni it w = Ok m -> good_scene s (atm_rows m) ->
  good_calibration pix refl -> response_curves s tr q ->
  exists r, reference_init a gsd (Some pix) (Some refl) = Ok r /\ sr_gsd r = gsd /\ forall w' T B X,
  simulate_image ni it diag d r s w = (w', Ok (T, B, X)) ->
  exists b, seen_rows s (atm_rows m) b /\ rows T = rows a /\ cols T = cols a /\
    forall i j, exists rho, calibrated (combine pix refl) (px a i j) rho /\
      px T i j = collected s tr q b (exposure s tr q b) 300 (clip01 rho).
Proof.
  intros GC GG O GS GK Rc. exists {| sr_img := a; sr_gsd := gsd; sr_pix := pix; sr_refl := refl |}.
  split; [reflexivity|]. split; [reflexivity|]. intros w' T B X H.
  exact (true_of_world ni it diag d {| sr_img := a; sr_gsd := gsd; sr_pix := pix; sr_refl := refl |} s w m w' T B X tr q GC GG O GS GK Rc H).
Qed.
Lemma true_default ni it diag d a gsd s w m tr q lo hi : good_camera s -> good_geometry (sc w) -> observe ni it w = Ok m -> good_scene s (atm_rows m) ->
  percentile (ravel a) 0.2 = Ok lo -> percentile (ravel a) 99.8 = Ok hi -> lo < hi -> response_curves s tr q ->
  exists r, reference_init a gsd None None = Ok r /\ sr_gsd r = gsd /\ forall w' T B X,
  simulate_image ni it diag d r s w = (w', Ok (T, B, X)) ->
  exists b, seen_rows s (atm_rows m) b /\ rows T = rows a /\ cols T = cols a /\
    forall i j, exists rho, calibrated [(lo, 0.05); (hi, 0.95)] (px a i j) rho /\
      px T i j = collected s tr q b (exposure s tr q b) 300 (clip01 rho).
Proof.
  intros GC GG O GS Lo Hi LH Rc. exists {| sr_img := a; sr_gsd := gsd; sr_pix := [lo; hi]; sr_refl := [0.05; 0.95] |}.
  split; [unfold reference_init, ref_image_init; rewrite Lo, Hi; reflexivity|]. split; [reflexivity|]. intros w' T B X H.
  assert (GK : good_calibration [lo; hi] [0.05; 0.95]).
  { split; [reflexivity|]. split; [simpl; lia|]. constructor; [simpl; lra|]. constructor; [simpl; tauto|constructor]. }
  exact (true_of_world ni it diag d {| sr_img := a; sr_gsd := gsd; sr_pix := [lo; hi]; sr_refl := [0.05; 0.95] |} s w m w' T B X tr q GC GG O GS GK Rc H).
Qed.
Lemma given_demo : good_calibration (sr_pix demo_ref) (sr_refl demo_ref) /\ good_geometry (sc demo_world) /\
  observe demo_load demo_load demo_world = Ok demo_m /\
  forall d, exists r, reference_init (sr_img demo_ref) (sr_gsd demo_ref) (Some (sr_pix demo_ref)) (Some (sr_refl demo_ref)) = Ok r /\
    exists w t bl n, simulate_image demo_load demo_load no_diag d r (red_cam [[1]]) demo_world = (w, Ok (t, bl, n)).
Proof.
  assert (G : good_calibration (sr_pix demo_ref) (sr_refl demo_ref)) by apply sim_demo.
  split; [exact G|]. split; [exact demo_geometry|]. split; [exact world_demo|]. intros d. exists demo_ref. split; [reflexivity|].
  apply like_run; [exact G|reflexivity|split; cbn; lia].
Qed.
Lemma default_demo : exists lo hi r, percentile (ravel strip) 0.2 = Ok lo /\ percentile (ravel strip) 99.8 = Ok hi /\ lo < hi /\
  reference_init strip 18 None None = Ok r /\
  forall d, exists w t bl n, simulate_image demo_load demo_load no_diag d r (red_cam [[1]]) demo_world = (w, Ok (t, bl, n)).
Proof.
  do 2 eexists. exists strip_ref. split; [apply strip_percentile; lra|]. split; [apply strip_percentile; lra|]. split; [cbn; lra|]. split; [exact strip_init|].
  intros d. apply like_run; [|reflexivity|split; cbn; lia]. split; [reflexivity|]. split; [cbn; lia|]. cbn.
  constructor; [intros [C|[]]; lra | repeat constructor; auto].
Qed.
