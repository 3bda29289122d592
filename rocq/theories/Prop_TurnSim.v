(** * Prop_TurnSim: camera and scene turned together *)
From Coq Require Import Reals Lra List Lia.
From Verif Require Import Base_XR Base_Np Model_Db Model_Scenario Model_Sensor Model_Rad Model_Otf Model_Img Model_Met Model_Sim
  Spec_Rad Spec_System Spec_Met Spec_Sim Spec_Turn Spec_TurnSim Proof_NiirsDemo Proof_SimDemo Proof_SimX Proof_GainDemo Proof_TurnSim Proof_TurnSimDemo.
Import ListNotations.
Open Scope R_scope.

(** ** C114 *)
(* camera without sharpening mask: rows and columns change places in all three pictures *)
Theorem C114_simulate_image : forall ni it diag d r s w m, observe ni it w = Ok m -> good_camera s -> (length (s_kernel s) <= 1)%nat ->
  good_geometry (sc w) -> good_scene s (atm_rows m) -> forall w1 t b n,
  simulate_image ni it diag d r s w = (w1, Ok (t, b, n)) <->
  simulate_image ni it diag (flip_draws d) (flip_reference r) (turned s) w = (w1, Ok (flip t, flip b, xflip n)).
Proof. exact image_turn. Qed.
Print Assumptions C114_simulate_image.

(* the calibration read off the image (given or by percentiles) is the same *)
Theorem C114_reference : forall a gsd pix refl r,
  reference_init a gsd pix refl = Ok r <-> reference_init (flip a) gsd pix refl = Ok (flip_reference r).
Proof. exact reference_turn. Qed.
Print Assumptions C114_reference.

(* the photoelectron table is the same, whatever the inputs *)
Theorem C114_photoelectrons : forall all s t T,
  reflectance_to_photoelectrons all (turned s) t T = reflectance_to_photoelectrons all s t T.
Proof. exact table_turn. Qed.
Print Assumptions C114_photoelectrons.

(* a camera shaking along x only, with oblong pitch, looking at a strip of two pixels *)
Example C114_example : observe demo_load demo_load demo_world = Ok demo_m /\ good_camera shaky /\ (length (s_kernel shaky) <= 1)%nat /\
  good_geometry (sc demo_world) /\ good_scene shaky (atm_rows demo_m) /\ s_sx (turned shaky) <> s_sx shaky /\ s_px (turned shaky) <> s_px shaky /\
  reference_init strip 18 None None = Ok strip_ref /\
  forall d, exists w t bl n, simulate_image demo_load demo_load no_diag d strip_ref shaky demo_world = (w, Ok (t, bl, n)).
Proof.
  split; [exact world_demo|]. split; [exact shaky_good|]. split; [cbn; lia|]. split; [exact demo_geometry|].
  split; [exact (demo_scene [[1]])|]. split; [apply shaky_turns|]. split; [apply shaky_turns|]. split; [exact strip_init | exact shaky_runs].
Qed.
