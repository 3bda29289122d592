(** * Prop_Native: sampling at the native spacing (C115) *)
From Coq Require Import Reals ZArith Lia Lra List Floats.
From Verif Require Import Base_XR Model_Scenario Model_Sensor Model_Img Model_Sim Model_F64 Model_F64Size Spec_F64 Spec_F64Size Spec_Img Spec_Blur
  Proof_F64Size Proof_Native Proof_NiirsDemo Proof_SimDemo Proof_GainDemo Proof_NativeDemo.
Import ListNotations.
Open Scope R_scope.

(** ** binary64: resample_2D *)
(* the size is the integer nearest to the exact quotient, unless that is within 0.01 of a tie *)
Theorem C115_resample_size_f64 : forall n m d e v w, (1 <= n <= 2 ^ 40)%Z -> (1 <= m <= 2 ^ 40)%Z ->
  stands_for d v -> stands_for e w -> / 2 ^ 400 <= v <= 2 ^ 400 -> / 2 ^ 400 <= w <= 2 ^ 400 ->
  Rabs (IZR n * v / w - IZR m) <= 49 / 100 -> resample_size_f64 n d e = Ok m.
Proof. exact resample_size_near. Qed.
Print Assumptions C115_resample_size_f64.

(* equal spacings keep the size *)
Theorem C115_resample_own_f64 : forall n d v, (1 <= n <= 2 ^ 49)%Z -> stands_for d v -> / 2 ^ 400 <= v <= 2 ^ 400 ->
  resample_size_f64 n d d = Ok n.
Proof. exact resample_size_own. Qed.
Print Assumptions C115_resample_own_f64.

(** ** binary64: otf_to_psf *)
(* the size is the exact quotient cut to an integer, unless that is within 0.01 of an integer *)
Theorem C115_psf_size_f64 : forall rows n m df dx f x, (1 <= rows <= 2 ^ 40)%Z -> (1 <= n <= 2 ^ 40)%Z -> (0 <= m <= 2 ^ 40)%Z ->
  stands_for df f -> stands_for dx x -> / 2 ^ 300 <= f <= 2 ^ 300 -> / 2 ^ 300 <= x <= 2 ^ 300 ->
  IZR m + 1 / 100 <= IZR n * (1 / (IZR rows * f)) / x <= IZR m + 99 / 100 ->
  psf_size_f64 rows n df dx = Ok (Z.max 1 m).
Proof. exact psf_size_inside. Qed.
Print Assumptions C115_psf_size_f64.

(* asked for its own spacing, the function keeps its size or loses one sample ... *)
Theorem C115_psf_own_f64 : forall n df f, (1 <= n <= 2 ^ 49)%Z -> stands_for df f -> / 2 ^ 300 <= f <= 2 ^ 300 ->
  psf_size_f64 n n df (psf_spacing_f64 n df) = Ok n \/ psf_size_f64 n n df (psf_spacing_f64 n df) = Ok (Z.max 1 (n - 1)).
Proof. exact psf_size_own. Qed.
Print Assumptions C115_psf_own_f64.

(* ... never for a power of two ... *)
Theorem C115_psf_power_f64 : forall j df f, (0 <= j <= 49)%Z -> stands_for df f -> / 2 ^ 300 <= f <= 2 ^ 300 ->
  psf_size_f64 (2 ^ j) (2 ^ j) df (psf_spacing_f64 (2 ^ j) df) = Ok (2 ^ j)%Z.
Proof. exact psf_size_power. Qed.
Print Assumptions C115_psf_power_f64.

(* ... but in general it does *)
Theorem C115_psf_own_refuted : ~ (forall n df f, (1 <= n <= 2 ^ 49)%Z -> stands_for df f -> / 2 ^ 300 <= f <= 2 ^ 300 ->
  psf_size_f64 n n df (psf_spacing_f64 n df) = Ok n).
Proof. exact psf_own_refuted. Qed.
Print Assumptions C115_psf_own_refuted.

(* of the frequency spacings 1, 2, ..., 1000 per radian, 61 lose a sample of a 1501 x 1501 function and 166 of a 500 x 500 one *)
Theorem C115_psf_own_count : length (filter (one_short 1501) (map Z.of_nat (seq 1 1000))) = 61%nat
  /\ length (filter (one_short 500) (map Z.of_nat (seq 1 1000))) = 166%nat.
Proof. exact psf_own_count. Qed.
Print Assumptions C115_psf_own_count.

(** ** the camera estimated for a reference picture *)
(* in binary64 its pictures keep the size of the reference picture *)
Theorem C115_capture_f64 : forall n g h gv hv, (1 <= n <= 2 ^ 47)%Z -> stands_for g gv -> stands_for h hv ->
  / 2 ^ 60 <= gv <= 2 ^ 60 -> / 2 ^ 60 <= hv <= 2 ^ 60 -> capture_size_f64 n g h = Ok n.
Proof. exact capture_size_own. Qed.
Print Assumptions C115_capture_f64.

(* its pixels cover as much ground as those of the picture *)
Theorem C115_capture_matches : forall ri alt s w, 0 < alt -> estimate_capture_parameters ri alt = Ok (s, w) ->
  slant_flat (sc w) <> 0 /\ s_px s + s_py s <> 0 /\ (s_px s + s_py s) / 2 * slant_flat (sc w) = ri_gsd ri * s_f s.
Proof. exact native_capture. Qed.
Print Assumptions C115_capture_matches.

(** ** any camera whose pixels cover as much ground as those of the reference picture *)
(* nothing is resampled: three pictures of the size of the reference picture, the second one the first
   correlated with a kernel of sum one *)
Theorem C115_matched_camera : forall ni it diag d r s w w1 T B X, simulate_image ni it diag d r s w = (w1, Ok (T, B, X)) ->
  slant_flat (sc w) <> 0 -> s_px s + s_py s <> 0 -> (s_px s + s_py s) / 2 * slant_flat (sc w) = sr_gsd r * s_f s ->
  rows T = rows (sr_img r) /\ cols T = cols (sr_img r) /\ rows B = rows (sr_img r) /\ cols B = cols (sr_img r) /\
  xrows X = rows (sr_img r) /\ xcols X = cols (sr_img r) /\
  exists k, (0 < rows k)%nat /\ (0 < cols k)%nat /\ sum_over (rows k) (cols k) (px k) = 1 /\
    forall e, (2 <= rows T)%nat -> (2 <= cols T)%nat -> mirrored (rows T) (cols T) (px T) e ->
    forall y x, (y < rows T)%nat -> (x < cols T)%nat -> px B y x = correlation (rows k) (cols k) (px k) e (Z.of_nat y) (Z.of_nat x).
Proof. exact native_sim. Qed.
Print Assumptions C115_matched_camera.

(** ** examples *)
Example C115_example : forall d, (exists w t bl n, simulate_image demo_load demo_load no_diag d demo_ref native_cam demo_world = (w, Ok (t, bl, n))) /\
  slant_flat (sc demo_world) <> 0 /\ s_px native_cam + s_py native_cam <> 0 /\
  (s_px native_cam + s_py native_cam) / 2 * slant_flat (sc demo_world) = sr_gsd demo_ref * s_f native_cam.
Proof. intros d. split; [exact (native_runs d)|exact native_match]. Qed.
(* 640 pixels with spacings 3 and 7: 274.28...; 3 m pixels from 9 km; 31 per radian on 1501 and on 1024 samples *)
Example C115_example_f64 : resample_size_f64 640 3 7 = Ok 274%Z /\ Rabs (IZR 640 * 3 / 7 - IZR 274) <= 49 / 100 /\
  capture_size_f64 640 3 9000 = Ok 640%Z /\ psf_size_f64 1501 1501 31 (psf_spacing_f64 1501 31) = Ok 1500%Z /\
  psf_size_f64 1024 1024 31 (psf_spacing_f64 1024 31) = Ok 1024%Z.
Proof.
  split; [vm_compute; reflexivity|]. split; [apply Rabs_le; lra|]. repeat split; vm_compute; reflexivity.
Qed.
