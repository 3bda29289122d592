(** * Prop_Baseline: the camera estimated by RefImage, used in simulate_image (C22, C116) *)
From Coq Require Import Reals Lra List Lia ZArith Sorted.
From Flocq Require Import Core.Raux.
From Verif Require Import Base_XR Base_Np Model_Geo Model_Noise Model_Scenario Model_Sensor Model_Rad Model_Db Model_Otf Model_Img Model_Met Model_Sim
  Spec_Rad Spec_Img Spec_System Spec_Met Spec_Sim Spec_Centre Spec_Baseline Proof_NiirsDemo Proof_SimDemo Proof_Baseline Proof_BaselineDemo Proof_BaselineRows.
Import ListNotations.
Open Scope R_scope.

(** ** C22 *)
(* simulate_image asks for reference pixels no larger than range / (4 coff), coff = D / wavelength
   (simulation/functional.py:178-183); the camera of estimate_capture_parameters
   misses that by a factor of more than 12 at every wavelength of its band, for every picture and altitude *)
Theorem C22_baseline_undersampled : forall ri alt s w l, 0 < ri_gsd ri -> 0 < alt -> estimate_capture_parameters ri alt = Ok (s, w) ->
  380 / 10 ^ 9 <= l <= 700 / 10 ^ 9 -> 12 * (slant_flat (sc w) / (4 * (s_D s / l))) < ri_gsd ri.
Proof. exact capture_undersampled. Qed.
Print Assumptions C22_baseline_undersampled.

Example C22_example_baseline : 0 < ri_gsd shot /\ (exists s w, estimate_capture_parameters shot 9000 = Ok (s, w)) /\ 380 / 10 ^ 9 <= 540 / 10 ^ 9 <= 700 / 10 ^ 9.
Proof.
  split; [cbn; lra|]. split; [|lra]. destruct shot_camera as (s & w & A & _). exists s, w. exact A.
Qed.

(** ** C116 *)
(* the frame on which its point spread function is computed does not depend on picture or altitude *)
Theorem C116_baseline_frame : forall ri alt s w a, 0 < ri_gsd ri -> 0 < alt -> estimate_capture_parameters ri alt = Ok (s, w) ->
  Rabs (a_wl a - 380 / 10 ^ 9) <= 0.1 / 10 ^ 9 \/ Rabs (a_wl a - 390 / 10 ^ 9) <= 0.1 / 10 ^ 9 ->
  let z := Zfloor (frame_pixels s (2 * atan (ri_gsd ri / 2 / slant_flat (sc w))) a) in (z = 131 \/ z = 135)%Z.
Proof. exact capture_frame. Qed.
Print Assumptions C116_baseline_frame.

(* "no-degradation baseline": wherever the charge is a plane within the reach of the kernel, it is
   unchanged.  The database has a sample every 10 nm, so the shortest wavelength that
   arrives is 380 nm or, where rounding drops that one, 390 nm. *)
Theorem C116_baseline : forall ni it diag d ri r alt s w w1 m T B X tr q, 0 < ri_gsd ri -> 0 < alt -> estimate_capture_parameters ri alt = Ok (s, w) ->
  sr_gsd r = ri_gsd ri -> simulate_image ni it diag d r s w = (w1, Ok (T, B, X)) -> observe ni it w = Ok m ->
  good_scene s (atm_rows m) -> response_curves s tr q ->
  (forall a, shortest_seen s tr q (atm_rows m) a -> Rabs (a_wl a - 380 / 10 ^ 9) <= 0.1 / 10 ^ 9 \/ Rabs (a_wl a - 390 / 10 ^ 9) <= 0.1 / 10 ^ 9) ->
  rows B = rows T /\ cols B = cols T /\ exists h v, (0 < h <= 135)%nat /\ (0 < v <= 135)%nat /\
    forall a b c y x, plane_near (rows T) (cols T) (px T) h v a b c y x -> px B y x = px T y x.
Proof. exact baseline_plane. Qed.
Print Assumptions C116_baseline.

Example C116_example_baseline : exists s w, estimate_capture_parameters shot 9000 = Ok (s, w) /\ observe demo_load demo_load w = Ok demo_m /\
  sr_gsd demo_ref = ri_gsd shot /\ good_scene s (atm_rows demo_m) /\ (exists tr q, response_curves s tr q) /\
  (a_wl violet = 380 / 10 ^ 9) /\ forall tr q, response_curves s tr q -> shortest_seen s tr q (atm_rows demo_m) violet.
Proof.
  destruct shot_camera as (s & w & A & B & C & D & E & F). exists s, w. repeat (split; [assumption|]). split; [exact violet_edge | exact F].
Qed.

(* the same from the atmosphere's side: samples every 10 nm, light at 390 nm *)
Theorem C116_baseline_frame_database : forall ri alt s w tr q rows a, 0 < ri_gsd ri -> 0 < alt -> estimate_capture_parameters ri alt = Ok (s, w) ->
  response_curves s tr q -> every_ten_nm rows -> shortest_seen s tr q rows a ->
  let z := Zfloor (frame_pixels s (2 * atan (ri_gsd ri / 2 / slant_flat (sc w))) a) in (z = 131 \/ z = 135)%Z.
Proof. exact frame_database. Qed.
Print Assumptions C116_baseline_frame_database.

Theorem C116_baseline_database : forall ni it diag d ri r alt s w w1 m T B X, 0 < ri_gsd ri -> 0 < alt -> estimate_capture_parameters ri alt = Ok (s, w) ->
  sr_gsd r = ri_gsd ri -> simulate_image ni it diag d r s w = (w1, Ok (T, B, X)) -> observe ni it w = Ok m -> every_ten_nm (atm_rows m) ->
  rows B = rows T /\ cols B = cols T /\ exists h v, (0 < h <= 135)%nat /\ (0 < v <= 135)%nat /\
    forall a b c y x, plane_near (rows T) (cols T) (px T) h v a b c y x -> px B y x = px T y x.
Proof. exact baseline_database. Qed.
Print Assumptions C116_baseline_database.

Example C116_example_database : every_ten_nm (atm_rows demo_m) /\
  exists s w tr q, estimate_capture_parameters shot 9000 = Ok (s, w) /\ response_curves s tr q /\ shortest_seen s tr q (atm_rows demo_m) violet.
Proof.
  split; [exact demo_ten|]. destruct shot_camera as (s & w & A & _ & _ & _ & (tr & q & E) & F).
  exists s, w, tr, q. split; [exact A|]. split; [exact E | exact (F tr q E)].
Qed.
