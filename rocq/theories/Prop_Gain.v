(** * Prop_Gain: gain, offset and polarity of the reference image *)
From Coq Require Import Reals Lra List Lia Sorted.
From Verif Require Import Base_XR Base_Np Model_Db Model_Scenario Model_Sensor Model_Rad Model_Otf Model_Img Model_Met Model_Sim
  Spec_Rad Spec_Met Spec_Sim Spec_Gain Proof_Rad Proof_RadP Proof_NiirsDemo Proof_SimDemo Proof_SimX Proof_Gain Proof_GainSim Proof_GainDemo.
Import ListNotations.
Open Scope R_scope.

(** ** C112 *)
(* the units of the pixel values do not matter: image and table remapped together,
   also for empty, short, unsorted or repeated tables *)
Theorem C112_calibration : forall a b p pix refl, 0 < a ->
  img_to_reflectance (remapped a b p) (map (fun x => a * x + b) pix) refl = img_to_reflectance p pix refl.
Proof. exact reflectance_gain. Qed.
Print Assumptions C112_calibration.

(* a brighter or stretched copy of the reference image gives the very same simulation;
   without a table, RefImage finds the remapped calibration itself *)
Theorem C112_gain : forall ni it diag d a b p gsd pix refl r s w, 0 < a -> reference_init p gsd pix refl = Ok r ->
  exists r', reference_init (remapped a b p) gsd (option_map (map (fun x => a * x + b)) pix) refl = Ok r' /\
    simulate_image ni it diag d r' s w = simulate_image ni it diag d r s w.
Proof. exact simulate_gain. Qed.
Print Assumptions C112_gain.

(* a table with distinct pixel values also undoes a negative *)
Theorem C112_polarity : forall ni it diag d a b p gsd pix refl r s w, a < 0 -> length pix = length refl -> (2 <= length pix)%nat -> NoDup pix ->
  reference_init p gsd (Some pix) (Some refl) = Ok r ->
  exists r', reference_init (remapped a b p) gsd (Some (map (fun x => a * x + b) pix)) (Some refl) = Ok r' /\
    simulate_image ni it diag d r' s w = simulate_image ni it diag d r s w.
Proof. exact simulate_flip. Qed.
Print Assumptions C112_polarity.

(* the default calibration does not: the reflectances are those of the complement *)
Theorem C112_negative : forall a b p gsd r, a < 0 -> reference_init p gsd None None = Ok r -> nth 0 (sr_pix r) 0 < nth 1 (sr_pix r) 0 ->
  exists r' x y, reference_init (remapped a b p) gsd None None = Ok r' /\
    img_to_reflectance (sr_img r) (sr_pix r) (sr_refl r) = Ok x /\ img_to_reflectance (sr_img r') (sr_pix r') (sr_refl r') = Ok y /\
    xrows y = xrows x /\ xcols y = xcols x /\ forall i j, exists t, xpx x i j = Fin t /\ 0 <= t <= 1 /\ xpx y i j = Fin (1 - t).
Proof. exact negative_reflectance. Qed.
Print Assumptions C112_negative.

(* and so the photoelectrons, before and after blurring, are those of a black plus
   those of a white target less those of the positive *)
Theorem C112_negative_simulated : forall ni it diag d d' s w a b p gsd r r' m tr q w1 t bl n w2 t' bl' n',
  observe ni it w = Ok m -> good_camera s -> good_geometry (sc w) -> good_scene s (atm_rows m) -> response_curves s tr q -> a < 0 ->
  reference_init p gsd None None = Ok r -> nth 0 (sr_pix r) 0 < nth 1 (sr_pix r) 0 -> reference_init (remapped a b p) gsd None None = Ok r' ->
  simulate_image ni it diag d r s w = (w1, Ok (t, bl, n)) -> simulate_image ni it diag d' r' s w = (w2, Ok (t', bl', n')) ->
  exists l, seen_rows s (atm_rows m) l /\ forall k, k = collected s tr q l (exposure s tr q l) 300 0 + collected s tr q l (exposure s tr q l) 300 1 ->
    rows t' = rows t /\ cols t' = cols t /\ rows bl' = rows bl /\ cols bl' = cols bl /\
    (forall i j, px t' i j = k - px t i j) /\
    forall i j, (i < rows bl)%nat -> (j < cols bl)%nat -> px bl' i j = k - px bl i j.
Proof. exact negative_simulated. Qed.
Print Assumptions C112_negative_simulated.

(* two pixels, 0 and 100, and any remapping of them *)
Example C112_example : reference_init strip 18 None None = Ok strip_ref /\ nth 0 (sr_pix strip_ref) 0 < nth 1 (sr_pix strip_ref) 0 /\
  observe demo_load demo_load demo_world = Ok demo_m /\ good_camera (red_cam [[1]]) /\ good_geometry (sc demo_world) /\
  good_scene (red_cam [[1]]) (atm_rows demo_m) /\ (exists tr q, response_curves (red_cam [[1]]) tr q) /\
  forall d a b, a <> 0 -> exists r', reference_init (remapped a b strip) 18 None None = Ok r' /\
    exists w t bl n, simulate_image demo_load demo_load no_diag d r' (red_cam [[1]]) demo_world = (w, Ok (t, bl, n)).
Proof.
  split; [exact strip_init|]. split; [cbn; lra|]. split; [exact world_demo|]. split; [apply red_good|]. split; [exact demo_geometry|].
  split; [apply demo_scene|]. split; [|exact strip_runs]. destruct (red_good [[1]]) as (P & St & _).
  do 2 eexists. exact (curves_exist _ (ph_tables _ P) St).
Qed.
