(** * Prop_Centre: where blurring puts the picture (C116) *)
From Coq Require Import Reals ZArith Lia Lra List.
From Flocq Require Import Core.Raux.
From Verif Require Import Base_XR Base_Np Model_Geo Model_Db Model_Scenario Model_Sensor Model_Rad Model_Img Model_Met Model_Sim Spec_Rad Spec_Img Spec_Met Spec_Sim Spec_Centre
  Proof_Image Proof_NiirsDemo Proof_SimDemo Proof_GainDemo Proof_NativeDemo Proof_Centre Proof_CentreX Proof_CentreDemo.
Import ListNotations.
Open Scope R_scope.

(** ** the kernel *)
(* a real OTF that looks the same upside down gives a kernel that does, of sum one, whose sides are odd exactly
   when the frame is an odd number of pixels wide; as long as the crop keeps the middle *)
Theorem C116_kernel : forall otf n kd df dx k, crows otf = n -> ccols otf = n -> Nat.odd n = true -> 0 < df -> 0 < dx ->
  (forall p q, (p < n)%nat -> (q < n)%nat -> re otf (n - 1 - p)%nat (n - 1 - q)%nat = re otf p q /\ im otf p q = 0) ->
  kept_middle n (px (psf_raw otf)) (psf_side df dx) -> otf_to_psf otf kd df (Fin dx) = Ok k ->
  (0 < rows k <= Nat.min n (Z.to_nat (psf_side df dx)))%nat /\ (0 < cols k <= Nat.min n (Z.to_nat (psf_side df dx)))%nat /\ sum_over (rows k) (cols k) (px k) = 1 /\ point_symmetric (rows k) (cols k) (px k) /\
  Nat.odd (rows k) = Z.odd (psf_side df dx) /\ Nat.odd (cols k) = Z.odd (psf_side df dx).
Proof. exact kernel_symmetric. Qed.
Print Assumptions C116_kernel.

(** ** the blurred picture *)
(* planes of brightness stay where they are when the frame is an odd number of pixels wide, and move
   half a pixel down and half a pixel to the right when it is an even number *)
Theorem C116_plane : forall T gsd rng otf n kd df ifov B sp, 0 < gsd -> 0 < rng -> 0 < df -> ifov * rng = gsd ->
  crows otf = n -> ccols otf = n -> Nat.odd n = true ->
  (forall p q, (p < n)%nat -> (q < n)%nat -> re otf (n - 1 - p)%nat (n - 1 - q)%nat = re otf p q /\ im otf p q = 0) ->
  kept_middle n (px (psf_raw otf)) (psf_side df (2 * atan (gsd / 2 / rng))) ->
  apply_otf_to_image T gsd Np rng otf kd df Py ifov = Ok (B, sp) ->
  let d := psf_side df (2 * atan (gsd / 2 / rng)) in
  rows B = rows T /\ cols B = cols T /\ (0 < rows sp <= Nat.min n (Z.to_nat d))%nat /\ (0 < cols sp <= Nat.min n (Z.to_nat d))%nat /\ Nat.odd (rows sp) = Z.odd d /\ Nat.odd (cols sp) = Z.odd d /\
  forall a b c y x, plane_near (rows T) (cols T) (px T) (rows sp) (cols sp) a b c y x ->
    px B y x = ramp a b c (INR y - lag d) (INR x - lag d).
Proof. exact apply_plane. Qed.
Print Assumptions C116_plane.

(* simulate_image with a camera whose pixels match those of the reference picture *)
Theorem C116_simulate : forall ni it diag d r s w w1 m T B X tr q, simulate_image ni it diag d r s w = (w1, Ok (T, B, X)) -> observe ni it w = Ok m ->
  good_camera s -> good_geometry (sc w) -> good_scene s (atm_rows m) -> (length (s_kernel s) <= 1)%nat -> 0 < sr_gsd r ->
  (s_px s + s_py s) / 2 * slant_flat (sc w) = sr_gsd r * s_f s -> response_curves s tr q ->
  let dx := 2 * atan (sr_gsd r / 2 / slant_flat (sc w)) in
  (forall a, shortest_seen s tr q (atm_rows m) a -> middle_anyway (frame_pixels s dx a)) ->
  rows B = rows T /\ cols B = cols T /\
  exists a0, shortest_seen s tr q (atm_rows m) a0 /\ let z := Z.max 1 (Zfloor (frame_pixels s dx a0)) in
  exists h v, (0 < h <= Nat.min 1501 (Z.to_nat z))%nat /\ (0 < v <= Nat.min 1501 (Z.to_nat z))%nat /\
    forall a b c y x, plane_near (rows T) (cols T) (px T) h v a b c y x ->
      px B y x = ramp a b c (INR y - lag z) (INR x - lag z).
Proof. exact sim_plane. Qed.
Print Assumptions C116_simulate.

(** ** perfect optics *)
(* the frame one pixel narrower than it has samples: every pixel becomes the mean of itself and its
   neighbours above and to the left *)
Theorem C116_half_pixel : forall T gsd rng otf n kd, nonempty T -> 0 < gsd -> 0 < rng -> crows otf = n -> ccols otf = n -> (11 <= n)%nat -> Nat.odd n = true ->
  (forall p q, (p < n)%nat -> (q < n)%nat -> re otf p q = 1 /\ im otf p q = 0) ->
  exists B sp, apply_otf_to_image T gsd Np rng otf kd (1 / (INR (n - 1) * (2 * atan (gsd / 2 / rng)))) Py (gsd / rng) = Ok (B, sp) /\
    rows B = rows T /\ cols B = cols T /\ rows sp = 10%nat /\ cols sp = 10%nat /\
    forall y x, (1 <= y < rows T)%nat -> (1 <= x < cols T)%nat ->
      px B y x = (px T (y - 1)%nat (x - 1)%nat + px T (y - 1)%nat x + px T y (x - 1)%nat + px T y x) / 4.
Proof. exact half_pixel. Qed.
Print Assumptions C116_half_pixel.

(* the frame 5, 7 or 9 pixels wide: the picture moves by one or two whole pixels in both directions *)
Theorem C116_few_pixels : forall T gsd rng otf n kd d s, nonempty T -> 0 < gsd -> 0 < rng -> crows otf = n -> ccols otf = n -> (21 <= n)%nat -> Nat.odd n = true -> few d s ->
  (forall p q, (p < n)%nat -> (q < n)%nat -> re otf p q = 1 /\ im otf p q = 0) ->
  exists B sp, apply_otf_to_image T gsd Np rng otf kd (1 / (INR d * (2 * atan (gsd / 2 / rng)))) Py (gsd / rng) = Ok (B, sp) /\
    rows B = rows T /\ cols B = cols T /\
    forall y x, (s <= y < rows T)%nat -> (s <= x < cols T)%nat -> px B y x = px T (y - s)%nat (x - s)%nat.
Proof. exact few_pixels. Qed.
Print Assumptions C116_few_pixels.

(* so perfect optics do not in general leave the picture alone *)
Theorem C116_undisplaced_refuted : ~ (forall T gsd rng otf n kd df B sp, nonempty T -> 0 < gsd -> 0 < rng -> 0 < df -> crows otf = n -> ccols otf = n ->
  (21 <= n)%nat -> Nat.odd n = true -> (forall p q, (p < n)%nat -> (q < n)%nat -> re otf p q = 1 /\ im otf p q = 0) ->
  apply_otf_to_image T gsd Np rng otf kd df Py (gsd / rng) = Ok (B, sp) ->
  forall y x, (y < rows T)%nat -> (x < cols T)%nat -> px B y x = px T y x).
Proof. exact displaced_by_two. Qed.
Print Assumptions C116_undisplaced_refuted.

(** ** examples *)
(* a slope of 12 x 12 pixels, frame of 20 pixels for 21 samples: moved by half a pixel *)
Example C116_example_plane : exists df B sp, 0 < df /\ kept_middle 21 (px (psf_raw (perfect 21))) (psf_side df (2 * atan (1 / 2 / 1))) /\
  apply_otf_to_image slope 1 Np 1 (perfect 21) Np df Py (1 / 1) = Ok (B, sp) /\ psf_side df (2 * atan (1 / 2 / 1)) = 20%Z /\
  plane_near (rows slope) (cols slope) (px slope) (rows sp) (cols sp) 3 1 2 6 6 /\ px B 6%nat 6%nat = ramp 3 1 2 (6 - / 2) (6 - / 2).
Proof. exact half_demo. Qed.
Example C116_example_simulate : forall d, (exists w t bl n, simulate_image demo_load demo_load no_diag d demo_ref native_cam demo_world = (w, Ok (t, bl, n))) /\
  observe demo_load demo_load demo_world = Ok demo_m /\ good_camera native_cam /\ good_geometry (sc demo_world) /\ good_scene native_cam (atm_rows demo_m) /\
  (length (s_kernel native_cam) <= 1)%nat /\ 0 < sr_gsd demo_ref /\
  (s_px native_cam + s_py native_cam) / 2 * slant_flat (sc demo_world) = sr_gsd demo_ref * s_f native_cam /\
  (exists tr q, response_curves native_cam tr q) /\
  forall tr q a, shortest_seen native_cam tr q (atm_rows demo_m) a -> middle_anyway (frame_pixels native_cam (2 * atan (sr_gsd demo_ref / 2 / slant_flat (sc demo_world))) a).
Proof.
  intros d. destruct sim_hypotheses as (A & B & C & D & E & F). split; [exact (native_runs d)|]. repeat (split; [assumption|]).
  split; [exact (proj2 (proj2 native_match))|]. split; [exact native_curves | exact frame_demo].
Qed.
(* a camera sampling finely enough for the other case *)
Example C116_example_wide : (forall tr q a, shortest_seen fine_cam tr q (atm_rows demo_m) a -> middle_anyway (frame_pixels fine_cam (2 * atan (0.00675 / 2 / slant_flat (sc demo_world))) a)) /\
  (s_px fine_cam + s_py fine_cam) / 2 * slant_flat (sc demo_world) = 0.00675 * s_f fine_cam.
Proof. exact wide_demo. Qed.
Example C116_example_few : few 9 2 /\ nonempty slope /\ forall p q, (p < 21)%nat -> (q < 21)%nat -> re (perfect 21) p q = 1 /\ im (perfect 21) p q = 0.
Proof. split; [right; right; lia|]. split; [split; cbn; lia|]. intros; split; reflexivity. Qed.
