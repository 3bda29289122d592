(** * Prop_Apply: property C119. *)
From Coq Require Import Reals Lra Lia List ZArith.
From Flocq Require Import Core.Raux.
From Verif Require Import Base_XR Base_Np Model_Geo Model_Otf Model_Img Spec_Img Spec_Blur Spec_Apply Proof_Psf Proof_Apply Prop_Img.
Import ListNotations.
Open Scope R_scope.

(** ** C119 *)
(* the kernel: the point spread function at the scene's pixel size, cut to the first window
   with more than 95 percent of its sum, and rescaled to sum one; or no kernel at all *)
Theorem C119_kernel : forall otf n m kd df dx, crows otf = n -> ccols otf = m -> (10 < n)%nat -> (10 < m)%nat -> df <> 0 -> dx <> 0 ->
  let h := Z.to_nat (Z.max 1 (Ztrunc (1 / df / dx))) in
  let w := Z.to_nat (Z.max 1 (Ztrunc (INR m / (INR n * df) / dx))) in
  let f := spread n m (re otf) (im otf) h w in
  exists k, (sum_over h w f <> 0 -> crop h w (Nat.min n m) f k) /\
  ((sum_over h w f = 0 \/ window_sum h w k f = 0) /\ otf_to_psf otf kd df (Fin dx) = Err NonFinite
   \/ sum_over h w f <> 0 /\ window_sum h w k f <> 0 /\
      exists out, otf_to_psf otf kd df (Fin dx) = Ok out /\ rows out = kept h k /\ cols out = kept w k
        /\ forall p q, (p < rows out)%nat -> (q < cols out)%nat -> px out p q = window h w k f p q / window_sum h w k f).
Proof. exact kernel_form. Qed.
Print Assumptions C119_kernel.

(* the window is determined by the samples *)
Theorem C119_one_window : forall h w b f k k', crop h w b f k -> crop h w b f k' -> k = k'.
Proof. exact crop_one. Qed.
Print Assumptions C119_one_window.

(* every pixel of both results: correlate the mirrored picture with the kernel, then interpolate *)
Theorem C119_pixels : forall a gsd kr rng otf n m kd df ki ifov e, (2 <= rows a)%nat -> (2 <= cols a)%nat -> 0 < gsd -> 0 < rng -> df <> 0 -> ifov <> 0 ->
  crows otf = n -> ccols otf = m -> (10 < n)%nat -> (10 < m)%nat -> mirrored (rows a) (cols a) (px a) e ->
  forall sim sp, apply_otf_to_image a gsd kr rng otf kd df ki ifov = Ok (sim, sp) ->
  let dx := 2 * atan (gsd / 2 / rng) in
  let h := Z.to_nat (Z.max 1 (Ztrunc (1 / df / dx))) in
  let w := Z.to_nat (Z.max 1 (Ztrunc (INR m / (INR n * df) / dx))) in
  let f := spread n m (re otf) (im otf) h w in
  exists k, crop h w (Nat.min n m) f k /\
    let K p q := window h w k f p q / window_sum h w k f in
    sum_over h w f <> 0 /\ window_sum h w k f <> 0 /\
    half_even (INR (rows a) * (gsd / rng) / ifov) (Z.of_nat (rows sim)) /\ half_even (INR (cols a) * (gsd / rng) / ifov) (Z.of_nat (cols sim)) /\
    half_even (INR (kept h k) * (gsd / rng) / ifov) (Z.of_nat (rows sp)) /\ half_even (INR (kept w k) * (gsd / rng) / ifov) (Z.of_nat (cols sp)) /\
    (forall i j, (i < rows sim)%nat -> (j < cols sim)%nat ->
       px sim i j = interpolated (rows a) (cols a) (fun y x => correlation (kept h k) (kept w k) K e (Z.of_nat y) (Z.of_nat x))
                      (pixel_position (rows a) (rows sim) i) (pixel_position (cols a) (cols sim) j)) /\
    (forall i j, (i < rows sp)%nat -> (j < cols sp)%nat ->
       px sp i j = interpolated (kept h k) (kept w k) K (pixel_position (kept h k) (rows sp) i) (pixel_position (kept w k) (cols sp) j)).
Proof. exact apply_form. Qed.
Print Assumptions C119_pixels.

(* the picture e exists and is unique *)
Theorem C119_continued : forall n m f, (2 <= n)%nat -> (2 <= m)%nat ->
  exists e, mirrored n m f e /\ forall e', mirrored n m f e' -> forall i j, e i j = e' i j.
Proof. exact continued_unique. Qed.
Print Assumptions C119_continued.

(* a 12 x 12 spectrum: the point spread function is flat, the kernel 10 x 10 *)
Example C119_kernel_example : crows dc12 = 12%nat /\ ccols dc12 = 12%nat /\
  exists out, otf_to_psf dc12 Py (1 / (12 * 3)) (Fin 3) = Ok out /\ rows out = 10%nat /\ cols out = 10%nat /\ forall i j, px out i j = 1 / 100.
Proof. split; [reflexivity|]. split; [reflexivity|]. apply dc12_psf. lra. Qed.
(* windows of a row of twelve samples and of a flat 30 x 30 picture: 10, 15, 20, 25 are too small *)
Example C119_kept_example : first_kept 12 10 = 1%nat /\ kept 12 10 = 10%nat /\ first_kept 13 10 = 1%nat /\ kept 13 10 = 11%nat
  /\ first_kept 7 10 = 5%nat /\ kept 7 10 = 2%nat.
Proof. repeat split. Qed.
Example C119_crop_example : crop 30 30 1501 (fun _ _ => 1) 30.
Proof. exact crop_flat. Qed.
Example C119_pixels_example : (exists e, mirrored (rows ramp5) (cols ramp5) (px ramp5) e) /\ exists sim sp,
  apply_otf_to_image ramp5 1 Py 100 dc12 Py (1 / (12 * (2 * atan (1 / 2 / 100)))) Py (1 / 50) = Ok (sim, sp)
  /\ (2 <= rows ramp5)%nat /\ (2 <= cols ramp5)%nat.
Proof.
  split; [apply continued; cbn; lia|]. destruct C74_example as (sim & sp & E & _). exists sim, sp. split; [exact E|]. cbn. lia.
Qed.
