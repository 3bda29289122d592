(** * Prop_Whole: property C120. *)
From Coq Require Import Reals Lra Lia List ZArith.
From Flocq Require Import Core.Raux.
From Verif Require Import Base_XR Base_Np Model_Scenario Model_Sensor Model_Rad Model_Db Model_Otf Model_Img Model_Met Model_Sim
  Spec_Rad Spec_Img Spec_Blur Spec_Met Spec_Sim Spec_Apply Spec_Whole Proof_RadP Proof_NiirsDemo Proof_SimDemo Proof_GainDemo Proof_Whole.
Import ListNotations.
Open Scope R_scope.

(** ** C120 *)
(* all three pictures returned by simulate_image *)
Theorem C120_pictures : forall ni it diag d r s w m w' T B X tr q e,
  good_camera s -> good_geometry (sc w) -> observe ni it w = Ok m -> good_scene s (atm_rows m) ->
  good_calibration (sr_pix r) (sr_refl r) -> response_curves s tr q ->
  (2 <= rows (sr_img r))%nat -> (2 <= cols (sr_img r))%nat -> 0 < sr_gsd r ->
  simulate_image ni it diag d r s w = (w', Ok (T, B, X)) -> mirrored (rows T) (cols T) (px T) e ->
  let L := sqrt (altitude (sc w) * altitude (sc w) + ground_range (sc w) * ground_range (sc w)) in
  let ifov := (s_px s + s_py s) / 2 / s_f s in
  exists b lmin r1 g k, seen_rows s (atm_rows m) b /\ (0 < plain (sc w) Cn2At1m -> seeing (sc w) L r1) /\
    (forall u v, sharpening diag s u v (g u v)) /\
    let ps := charge_spectrum s tr q (scene_radiance 1 300) b in
    In lmin (map fst ps) /\ (forall p, In p ps -> lmin <= fst p) /\
    let df := s_D s / lmin / 750 in
    let h := Z.to_nat (Z.max 1 (Ztrunc (1 / df / (2 * atan (sr_gsd r / 2 / L))))) in
    let mtf u v := system_mtf s (sc w) ps r1 u v * g u v in
    let f := spread 1501 1501 (fun i j => mtf ((INR j - 750) * df) ((750 - INR i) * df)) (fun _ _ => 0) h h in
    crop h h 1501 f k /\ sum_over h h f <> 0 /\ window_sum h h k f <> 0 /\
    (rows T = rows (sr_img r) /\ cols T = cols (sr_img r) /\
     forall i j, exists rho, calibrated (combine (sr_pix r) (sr_refl r)) (px (sr_img r) i j) rho /\
       px T i j = collected s tr q b (exposure s tr q b) 300 (clip01 rho)) /\
    (half_even (INR (rows T) * (sr_gsd r / L) / ifov) (Z.of_nat (rows B)) /\
     half_even (INR (cols T) * (sr_gsd r / L) / ifov) (Z.of_nat (cols B)) /\
     forall i j, (i < rows B)%nat -> (j < cols B)%nat ->
       px B i j = interpolated (rows T) (cols T)
                    (fun y x => correlation (kept h k) (kept h k) (fun p q => window h h k f p q / window_sum h h k f) e (Z.of_nat y) (Z.of_nat x))
                    (pixel_position (rows T) (rows B) i) (pixel_position (cols T) (cols B) j)) /\
    (xrows X = rows B /\ xcols X = cols B /\
     forall i j, xpx X i j = Fin (INR (d_count d (px B i j) i j) + additive_noise s * d_normal d i j)).
Proof. exact whole_form. Qed.
Print Assumptions C120_pictures.

(* the coherence diameter is determined by range, height, wind and ground value: the point on the
   ground does not matter *)
Theorem C120_one_seeing : forall c L r1 r2, seeing c L r1 -> seeing c L r2 -> r1 = r2.
Proof. exact seeing_one. Qed.
Print Assumptions C120_one_seeing.

Example C120_example : good_camera (red_cam [[1]]) /\ good_geometry (sc demo_world) /\ observe demo_load demo_load demo_world = Ok demo_m /\
  good_scene (red_cam [[1]]) (atm_rows demo_m) /\ good_calibration (sr_pix demo_ref) (sr_refl demo_ref) /\
  (exists tr q, response_curves (red_cam [[1]]) tr q) /\
  (2 <= rows (sr_img demo_ref))%nat /\ (2 <= cols (sr_img demo_ref))%nat /\ 0 < sr_gsd demo_ref /\ 0 < plain (sc demo_world) Cn2At1m /\
  forall d, exists w t bl n e, simulate_image demo_load demo_load no_diag d demo_ref (red_cam [[1]]) demo_world = (w, Ok (t, bl, n)) /\
    mirrored (rows t) (cols t) (px t) e.
Proof. exact whole_demo. Qed.
