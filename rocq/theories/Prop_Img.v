(** * Prop_Img: properties C66-C74, C94 and C104. *)
From Coq Require Import Reals Lra Lia Bool List ZArith.
From Flocq Require Import Core.Raux.
From Verif Require Import Base_XR Base_Np Model_Geo Model_Otf Model_Img Spec_Img Spec_Blur
  Proof_Slice Proof_Psf Proof_Image Proof_ImgX.
Import ListNotations.
Open Scope R_scope.

(** ** C66 *)
Theorem C66_along_u : forall otf c, (1 <= c)%nat -> rows otf = (2 * c + 1)%nat -> cols otf = (2 * c + 1)%nat ->
  slice_otf otf 0 = Ok (map (fun i => px otf c (c + i)) (seq 0 c)).
Proof. exact slice_u. Qed.
Print Assumptions C66_along_u.

Theorem C66_along_v : forall otf c, (1 <= c)%nat -> rows otf = (2 * c + 1)%nat -> cols otf = (2 * c + 1)%nat ->
  slice_otf otf (PI / 2) = Ok (map (fun i => px otf (c - i) c) (seq 0 c)).
Proof. exact slice_v. Qed.
Print Assumptions C66_along_v.

(* at every angle the samples stay within the range of the array *)
Theorem C66_range : forall otf N ang lo hi, rows otf = N -> cols otf = N -> (2 <= N)%nat ->
  (forall i j, (i < N)%nat -> (j < N)%nat -> lo <= px otf i j <= hi) ->
  exists l, slice_otf otf ang = Ok l /\ length l = (N / 2)%nat /\ forall x, In x l -> lo <= x <= hi.
Proof. exact slice_range. Qed.
Print Assumptions C66_range.

Theorem C66_errors : forall otf ang,
  ((rows otf < 2)%nat -> slice_otf otf ang = Err IndexError)
  /\ ((2 <= rows otf)%nat -> rows otf <> cols otf -> slice_otf otf ang = Err ValueError).
Proof. exact slice_errors. Qed.
Print Assumptions C66_errors.

Definition ramp5 : img := {| rows := 5; cols := 5; px := fun i j => INR (10 * i + j) |}.
Example C66_example : slice_otf ramp5 0 = Ok [INR 22; INR 23] /\ slice_otf ramp5 (PI / 2) = Ok [INR 22; INR 12].
Proof. split; [exact (slice_u ramp5 2 ltac:(lia) eq_refl eq_refl) | exact (slice_v ramp5 2 ltac:(lia) eq_refl eq_refl)]. Qed.

(** ** C67 *)
(* in the first quadrant a surface A + B u + C v + D u v is sampled at
   (r cos ang, r sin ang), r = 0, du, 2 du, ... *)
Theorem C67_first_quadrant : forall otf N A B C D ang, rows otf = N -> cols otf = N -> (2 <= N)%nat ->
  0 <= ang <= PI / 2 ->
  (forall i j, (i < N)%nat -> (j < N)%nat ->
     px otf i j = A + B * (-1 + 2 * INR j / INR (N - 1)) + C * (1 - 2 * INR i / INR (N - 1))
             + D * (-1 + 2 * INR j / INR (N - 1)) * (1 - 2 * INR i / INR (N - 1))) ->
  exists l, slice_otf otf ang = Ok l /\ length l = (N / 2)%nat /\
  forall i, (i < N / 2)%nat ->
    let r := 2 * INR i / INR (N - 1) in
    nth i l 0 = A + B * (r * cos ang) + C * (r * sin ang) + D * (r * cos ang) * (r * sin ang).
Proof. exact slice_first_quadrant. Qed.
Print Assumptions C67_first_quadrant.

(* full statement, every angle.  False: *)
Theorem C67_every_angle_refuted : ~ forall otf N A B C D ang, rows otf = N -> cols otf = N -> (2 <= N)%nat ->
  (forall i j, (i < N)%nat -> (j < N)%nat ->
     px otf i j = A + B * (-1 + 2 * INR j / INR (N - 1)) + C * (1 - 2 * INR i / INR (N - 1))
             + D * (-1 + 2 * INR j / INR (N - 1)) * (1 - 2 * INR i / INR (N - 1))) ->
  exists l, slice_otf otf ang = Ok l /\ length l = (N / 2)%nat /\
  forall i, (i < N / 2)%nat ->
    let r := 2 * INR i / INR (N - 1) in
    nth i l 0 = A + B * (r * cos ang) + C * (r * sin ang) + D * (r * cos ang) * (r * sin ang).
Proof. exact slice_ccw_refuted. Qed.
Print Assumptions C67_every_angle_refuted.

(* what happens instead: the coordinate along an axis with a negative direction
   cosine runs backwards *)
Theorem C67_what_is_returned : forall otf N A B C D ang, rows otf = N -> cols otf = N -> (2 <= N)%nat ->
  (forall i j, (i < N)%nat -> (j < N)%nat ->
     px otf i j = A + B * (-1 + 2 * INR j / INR (N - 1)) + C * (1 - 2 * INR i / INR (N - 1))
             + D * (-1 + 2 * INR j / INR (N - 1)) * (1 - 2 * INR i / INR (N - 1))) ->
  exists l, slice_otf otf ang = Ok l /\ length l = (N / 2)%nat /\
  forall i, (i < N / 2)%nat ->
    let r k := 2 * INR k / INR (N - 1) in
    let x := if Rltb (cos ang) 0 then r (N / 2 - 1 - i)%nat * cos ang else r i * cos ang in
    let y := if Rltb (sin ang) 0 then r (N / 2 - 1 - i)%nat * sin ang else r i * sin ang in
    nth i l 0 = A + B * x + C * y + D * x * y.
Proof. exact slice_bilinear. Qed.
Print Assumptions C67_what_is_returned.

(* along -u the list is the right one, backwards *)
Theorem C67_minus_u : forall otf c, (1 <= c)%nat -> rows otf = (2 * c + 1)%nat -> cols otf = (2 * c + 1)%nat ->
  slice_otf otf PI = Ok (rev (map (fun i => px otf c (c - i)) (seq 0 c))).
Proof. exact slice_minus_u. Qed.
Print Assumptions C67_minus_u.

Example C67_example : slice_otf ramp5 PI = Ok [INR 21; INR 22].
Proof. exact (slice_minus_u ramp5 2 ltac:(lia) eq_refl eq_refl). Qed.

(** ** C68 *)
Theorem C68_unit_sum : forall otf kd df dx out, otf_to_psf otf kd df dx = Ok out ->
  sum_over (rows out) (cols out) (px out) = 1.
Proof. exact psf_sum_one. Qed.
Print Assumptions C68_unit_sum.

Example C68_example : exists out, otf_to_psf dc12 Np (1 / (12 * 0.001)) (Fin 0.001) = Ok out
  /\ rows out = 10%nat /\ cols out = 10%nat /\ forall i j, px out i j = 1 / 100.
Proof. apply dc12_psf. lra. Qed.

(** ** C69 *)
Theorem C69_support : forall otf kd df dx out, (0 < crows otf)%nat -> (0 < ccols otf)%nat -> df <> 0 -> dx <> 0 ->
  otf_to_psf otf kd df (Fin dx) = Ok out ->
  exists raw t,
    cv_resize (psf_raw otf)
      (Z.max 1 (Ztrunc (INR (ccols otf) / (INR (crows otf) * df) / dx))) (Z.max 1 (Ztrunc (1 / df / dx))) = Ok raw
    /\ (10 + 5 * t < Nat.min (crows otf) (ccols otf))%nat
    /\ (forall t', (t' < t)%nat -> isum (get_middle (iscale (isum raw) raw) (10 + 5 * t')) <= 0.95)
    /\ (0.95 < isum (get_middle (iscale (isum raw) raw) (10 + 5 * t)) \/ (Nat.min (crows otf) (ccols otf) <= 10 + 5 * t + 5)%nat)
    /\ out = iscale (isum (get_middle (iscale (isum raw) raw) (10 + 5 * t))) (get_middle (iscale (isum raw) raw) (10 + 5 * t)).
Proof. exact psf_sizes. Qed.
Print Assumptions C69_support.

Theorem C69_small_arrays : forall otf kd df dx, (0 < crows otf)%nat -> (0 < ccols otf)%nat ->
  (Nat.min (crows otf) (ccols otf) <= 10)%nat -> df <> 0 -> dx <> 0 ->
  otf_to_psf otf kd df (Fin dx) = Err UnboundLocalError.
Proof. exact psf_small. Qed.
Print Assumptions C69_small_arrays.

Theorem C69_zero_spacing : forall otf df dx, (0 < crows otf)%nat -> (0 < ccols otf)%nat ->
  otf_to_psf otf Py 0 dx = Err ZeroDivisionError
  /\ (0 < df -> otf_to_psf otf Py df (Fin 0) = Err OverflowError).
Proof. exact psf_errors. Qed.
Print Assumptions C69_zero_spacing.

(* a direct call with Python numbers *)
Theorem C69_direct_call : forall otf kd df dx, dx <> 0 ->
  otf_to_psf_k Py otf kd df (Fin dx) = otf_to_psf otf kd df (Fin dx).
Proof. exact psf_py_same. Qed.
Print Assumptions C69_direct_call.

Theorem C69_direct_call_zero : forall otf df dx, (0 < crows otf)%nat -> (0 < ccols otf)%nat ->
  otf_to_psf_k Py otf Py 0 dx = Err ZeroDivisionError
  /\ otf_to_psf_k Py otf Py df (Fin 0) = Err ZeroDivisionError.
Proof. exact psf_py_zero. Qed.
Print Assumptions C69_direct_call_zero.

Example C69_example : (0 < crows dc3)%nat /\ (Nat.min (crows dc3) (ccols dc3) <= 10)%nat
  /\ otf_to_psf dc3 Py 1 (Fin 1) = Err UnboundLocalError
  /\ exists out, otf_to_psf dc12 Py (1 / (12 * 1)) (Fin 1) = Ok out.
Proof.
  split; [cbn; lia|]. split; [cbn; lia|]. split; [apply psf_small; cbn; lia || lra|].
  destruct (dc12_psf Py 1 ltac:(lra)) as (out & E & _). exists out. exact E.
Qed.

(** ** C70 *)
Theorem C70_even : forall otf i j, (0 < crows otf)%nat -> (0 < ccols otf)%nat ->
  Nat.even (crows otf) = true -> Nat.even (ccols otf) = true ->
  px (psf_raw otf) i j
  = inverse_ft (crows otf) (ccols otf) (ctr (crows otf)) (ctr (ccols otf)) (re otf) (im otf) i j.
Proof. exact psf_even. Qed.
Print Assumptions C70_even.

(* full statement, sizes of either parity.  False: *)
Theorem C70_every_size_refuted : ~ forall otf i j, (0 < crows otf)%nat -> (0 < ccols otf)%nat ->
  px (psf_raw otf) i j
  = inverse_ft (crows otf) (ccols otf) (ctr (crows otf)) (ctr (ccols otf)) (re otf) (im otf) i j.
Proof. exact psf_centred_refuted. Qed.
Print Assumptions C70_every_size_refuted.

(* odd sizes: every sample is taken for the frequency one step below its own *)
Theorem C70_odd : forall otf i j, (0 < crows otf)%nat -> (0 < ccols otf)%nat ->
  Nat.odd (crows otf) = true -> Nat.odd (ccols otf) = true ->
  px (psf_raw otf) i j
  = inverse_ft (crows otf) (ccols otf) (ctr (crows otf) + 1) (ctr (ccols otf) + 1) (re otf) (im otf) i j.
Proof. exact psf_odd. Qed.
Print Assumptions C70_odd.

(* and so the point spread of a real system is multiplied by a cosine *)
Theorem C70_odd_modulated : forall otf i j, (0 < crows otf)%nat -> (0 < ccols otf)%nat ->
  Nat.odd (crows otf) = true -> Nat.odd (ccols otf) = true ->
  (forall p q, (p < crows otf)%nat -> (q < ccols otf)%nat ->
     re otf (crows otf - 1 - p)%nat (ccols otf - 1 - q)%nat = re otf p q
     /\ im otf (crows otf - 1 - p)%nat (ccols otf - 1 - q)%nat = - im otf p q) ->
  px (psf_raw otf) i j
  = cos (2 * PI * ((INR i - ctr (crows otf)) / INR (crows otf) + (INR j - ctr (ccols otf)) / INR (ccols otf)))
    * inverse_ft (crows otf) (ccols otf) (ctr (crows otf)) (ctr (ccols otf)) (re otf) (im otf) i j.
Proof. exact psf_odd_modulated. Qed.
Print Assumptions C70_odd_modulated.

Example C70_example :
  inverse_ft 3 3 (ctr 3) (ctr 3) (re dc3) (im dc3) 0 1 = 1 / 9 /\ px (psf_raw dc3) 0 1 = - (1 / 18)
  /\ forall i j, px (psf_raw dc12) i j = 1 / 144.
Proof. split; [apply dc3_true|]. split; [exact dc3_code | exact dc12_raw]. Qed.

(** ** C71 *)
Theorem C71_large_enough : forall a k, (k <= rows a)%nat -> (k <= cols a)%nat ->
  exists i0 j0, (2 * i0 + rows (get_middle a k) = rows a)%nat /\ (2 * j0 + cols (get_middle a k) = cols a)%nat
    /\ (k <= rows (get_middle a k) <= k + 1)%nat /\ (k <= cols (get_middle a k) <= k + 1)%nat
    /\ (Nat.even (rows a) = Nat.even k -> rows (get_middle a k) = k)
    /\ (Nat.even (cols a) = Nat.even k -> cols (get_middle a k) = k)
    /\ forall i j, px (get_middle a k) i j = px a (i0 + i)%nat (j0 + j)%nat.
Proof. exact get_middle_inside. Qed.
Print Assumptions C71_large_enough.

(* full statement, arrays of every size.  False: *)
Theorem C71_every_size_refuted : ~ forall a k, (0 < rows a)%nat -> (0 < cols a)%nat ->
  exists i0 j0, (2 * i0 + rows (get_middle a k) = rows a)%nat /\ (2 * j0 + cols (get_middle a k) = cols a)%nat
    /\ forall i j, (i < rows (get_middle a k))%nat -> (j < cols (get_middle a k))%nat ->
       px (get_middle a k) i j = px a (i0 + i)%nat (j0 + j)%nat.
Proof. exact crop_centred_refuted. Qed.
Print Assumptions C71_every_size_refuted.

(* smaller arrays: the negative start counts from the end *)
Theorem C71_too_small : forall a k, (0 < rows a < k)%nat -> (0 < cols a < k)%nat ->
  exists i0 j0,
    Z.of_nat i0 = Z.max 0 ((3 * Z.of_nat (rows a) - Z.of_nat k) / 2)
    /\ Z.of_nat j0 = Z.max 0 ((3 * Z.of_nat (cols a) - Z.of_nat k) / 2)
    /\ (i0 + rows (get_middle a k) = rows a)%nat /\ (j0 + cols (get_middle a k) = cols a)%nat
    /\ forall i j, px (get_middle a k) i j = px a (i0 + i)%nat (j0 + j)%nat.
Proof. exact get_middle_outside. Qed.
Print Assumptions C71_too_small.

Definition ramp8 : img := {| rows := 8; cols := 8; px := fun i j => INR (10 * i + j) |}.
Example C71_example : rows (get_middle ramp8 10) = 1%nat /\ px (get_middle ramp8 10) 0 0 = INR 77
  /\ rows (get_middle ramp8 4) = 4%nat /\ px (get_middle ramp8 4) 0 0 = INR 22.
Proof.
  destruct (crop_small ramp8 eq_refl eq_refl) as (A & _ & B). split; [exact A|]. split; [exact B|].
  destruct (get_middle_inside ramp8 4) as (i0 & j0 & C & D & _ & _ & E & F & G); [cbn; lia | cbn; lia|].
  rewrite (E eq_refl) in C. rewrite (F eq_refl) in D. cbn [ramp8 rows cols] in C, D.
  assert (i0 = 2%nat) by lia. assert (j0 = 2%nat) by lia. subst. split; [exact (E eq_refl)|]. rewrite G. reflexivity.
Qed.

(** ** C72 *)
(* half_even q n: n is the integer nearest to q, the even one of two equally near *)
Theorem C72_size : forall k a din dout w h, nonempty a -> dout <> 0 ->
  half_even (INR (cols a) * din / dout) w -> half_even (INR (rows a) * din / dout) h ->
  ((0 < w)%Z -> (0 < h)%Z -> exists b, resample_2D k a (Fin din) (Fin dout) = Ok b
     /\ Z.of_nat (cols b) = w /\ Z.of_nat (rows b) = h)
  /\ ((w <= 0)%Z \/ (h <= 0)%Z -> resample_2D k a (Fin din) (Fin dout) = Err CvError).
Proof. exact resample_size. Qed.
Print Assumptions C72_size.

Theorem C72_equal_spacing : forall k a d, nonempty a -> d <> 0 ->
  exists b, resample_2D k a (Fin d) (Fin d) = Ok b /\ rows b = rows a /\ cols b = cols a
    /\ forall i j, (i < rows a)%nat -> (j < cols a)%nat -> px b i j = px a i j.
Proof. exact resample_same. Qed.
Print Assumptions C72_equal_spacing.

(* every sample: tent weights around the position of the output pixel *)
Theorem C72_samples : forall k a din dout b, resample_2D k a (Fin din) (Fin dout) = Ok b ->
  forall i j, (i < rows b)%nat -> (j < cols b)%nat ->
  px b i j = interpolated (rows a) (cols a) (px a)
               (pixel_position (rows a) (rows b) i) (pixel_position (cols a) (cols b) j).
Proof. exact resample_tent. Qed.
Print Assumptions C72_samples.

Theorem C72_zero_spacing : forall a din, resample_2D Py a din (Fin 0) = Err ZeroDivisionError.
Proof. exact resample_zero. Qed.
Print Assumptions C72_zero_spacing.

(* a numpy spacing of zero raises a different exception *)
Theorem C72_zero_spacing_numpy : forall a din, nonempty a -> din <> 0 ->
  resample_2D Np a (Fin din) (Fin 0) = Err OverflowError.
Proof. exact resample_zero_np. Qed.
Print Assumptions C72_zero_spacing_numpy.

Example C72_example : nonempty ramp5 /\ half_even (INR (cols ramp5) * 1 / 2) 2 /\ half_even (INR (rows ramp5) * 1 / 2) 2
  /\ ~ half_even (INR (rows ramp5) * 1 / 2) 3.
Proof.
  split; [split; cbn; lia|]. assert (H : half_even (INR 5 * 1 / 2) 2).
  { split; [|intros _; reflexivity]. replace (IZR 2 - INR 5 * 1 / 2) with (- / 2) by (simpl INR; lra). rewrite Rabs_Ropp, Rabs_pos_eq by lra. lra. }
  split; [exact H|]. split; [exact H|]. intros K. discriminate (half_even_unique _ _ _ H K).
Qed.

(** ** C73 *)
Theorem C73_blur_constant : forall a k b c, filter2D a k = Ok b -> sum_over (rows k) (cols k) (px k) = 1 ->
  (forall i j, (i < rows a)%nat -> (j < cols a)%nat -> px a i j = c) ->
  forall y x, px b y x = c.
Proof. exact filter_const. Qed.
Print Assumptions C73_blur_constant.

Theorem C73_blur_range : forall a k b lo hi, filter2D a k = Ok b -> sum_over (rows k) (cols k) (px k) = 1 ->
  (forall p q, (p < rows k)%nat -> (q < cols k)%nat -> 0 <= px k p q) ->
  (forall i j, (i < rows a)%nat -> (j < cols a)%nat -> lo <= px a i j <= hi) ->
  forall y x, lo <= px b y x <= hi.
Proof. exact filter_range. Qed.
Print Assumptions C73_blur_range.

Theorem C73_blur_linear : forall a b k a' b' p q, rows b = rows a -> cols b = cols a ->
  filter2D a k = Ok a' -> filter2D b k = Ok b' ->
  exists c', filter2D (lincomb p q a b) k = Ok c' /\ rows c' = rows a' /\ cols c' = cols a'
    /\ forall i j, px c' i j = p * px a' i j + q * px b' i j.
Proof. exact filter_linear. Qed.
Print Assumptions C73_blur_linear.

(* a point kernel leaves the picture alone, borders included *)
Theorem C73_blur_identity : forall a k b, filter2D a k = Ok b ->
  (forall p q, (p < rows k)%nat -> (q < cols k)%nat ->
     px k p q = if Nat.eqb p (rows k / 2) && Nat.eqb q (cols k / 2) then 1 else 0) ->
  forall y x, (y < rows a)%nat -> (x < cols a)%nat -> px b y x = px a y x.
Proof. exact filter_identity. Qed.
Print Assumptions C73_blur_identity.

Theorem C73_resize_constant : forall a w h b c, cv_resize a w h = Ok b ->
  (forall i j, (i < rows a)%nat -> (j < cols a)%nat -> px a i j = c) ->
  forall i j, (i < rows b)%nat -> (j < cols b)%nat -> px b i j = c.
Proof. exact resize_const. Qed.
Print Assumptions C73_resize_constant.

Theorem C73_resize_range : forall a w h b lo hi, cv_resize a w h = Ok b ->
  (forall i j, (i < rows a)%nat -> (j < cols a)%nat -> lo <= px a i j <= hi) ->
  forall i j, (i < rows b)%nat -> (j < cols b)%nat -> lo <= px b i j <= hi.
Proof. exact resize_range. Qed.
Print Assumptions C73_resize_range.

Theorem C73_resize_linear : forall a b w h a' b' p q, rows b = rows a -> cols b = cols a ->
  cv_resize a w h = Ok a' -> cv_resize b w h = Ok b' ->
  exists c', cv_resize (lincomb p q a b) w h = Ok c' /\ rows c' = rows a' /\ cols c' = cols a'
    /\ forall i j, px c' i j = p * px a' i j + q * px b' i j.
Proof. exact resize_linear. Qed.
Print Assumptions C73_resize_linear.

(* every blurred pixel: correlation with the kernel, the picture being continued
   by reflection in its outermost rows and columns *)
Theorem C73_blur_value : forall a k b e, filter2D a k = Ok b -> (2 <= rows a)%nat -> (2 <= cols a)%nat ->
  mirrored (rows a) (cols a) (px a) e ->
  forall y x, px b y x = correlation (rows k) (cols k) (px k) e (Z.of_nat y) (Z.of_nat x).
Proof. exact filter_correlation. Qed.
Print Assumptions C73_blur_value.

Theorem C73_resize_value : forall a w h b, cv_resize a w h = Ok b ->
  forall i j, (i < rows b)%nat -> (j < cols b)%nat ->
  px b i j = interpolated (rows a) (cols a) (px a)
               (pixel_position (rows a) (rows b) i) (pixel_position (cols a) (cols b) j).
Proof. exact resize_tent. Qed.
Print Assumptions C73_resize_value.

(* a 2 x 2 picture and its continuation *)
Definition four : img := {| rows := 2; cols := 2; px := fun i j => INR (10 * i + j) |}.
Example C73_mirrored : mirrored (rows four) (cols four) (px four)
  (fun i j => (if Z.even i then 0 else 10) + (if Z.even j then 0 else 1)).
Proof.
  unfold mirrored. cbn [four rows cols px]. change (2 * (Z.of_nat 2 - 1))%Z with 2%Z. repeat split; intros.
  - destruct i as [|[|]]; try lia; destruct j as [|[|]]; try lia; simpl; lra.
  - rewrite Z.even_opp. reflexivity.
  - rewrite Z.even_opp. reflexivity.
  - rewrite Z.even_sub. destruct (Z.even i); reflexivity.
  - rewrite Z.even_sub. destruct (Z.even j); reflexivity.
Qed.

Definition box2 : img := {| rows := 2; cols := 2; px := fun _ _ => 1 / 4 |}.
Example C73_example : sum_over (rows box2) (cols box2) (px box2) = 1
  /\ (exists b, filter2D ramp5 box2 = Ok b) /\ (exists b, cv_resize ramp5 3 2 = Ok b).
Proof.
  split; [unfold sum_over, Rsum; simpl; lra|]. split.
  - destruct (filter_ok ramp5 box2) as (b & E & _); [split; cbn; lia | split; cbn; lia|]. exists b. exact E.
  - destruct (resize_ok ramp5 3 2) as (b & E & _); [split; cbn; lia | lia | lia|]. exists b. exact E.
Qed.

(** ** C74 *)
Theorem C74_uniform : forall img gsd kr rng otf kd df ki ifov sim sp c, rng <> 0 -> ifov <> 0 ->
  apply_otf_to_image img gsd kr rng otf kd df ki ifov = Ok (sim, sp) ->
  (forall i j, (i < rows img)%nat -> (j < cols img)%nat -> px img i j = c) ->
  forall i j, (i < rows sim)%nat -> (j < cols sim)%nat -> px sim i j = c.
Proof. exact apply_uniform. Qed.
Print Assumptions C74_uniform.

(* when it succeeds, and how large the results are *)
Theorem C74_sizes : forall img gsd kr rng otf kd df ki ifov psf w h w' h',
  nonempty img -> rng <> 0 -> ifov <> 0 ->
  otf_to_psf otf kd df (Fin (2 * atan (gsd / 2 / rng))) = Ok psf ->
  half_even (INR (cols img) * (gsd / rng) / ifov) w -> half_even (INR (rows img) * (gsd / rng) / ifov) h ->
  half_even (INR (cols psf) * (gsd / rng) / ifov) w' -> half_even (INR (rows psf) * (gsd / rng) / ifov) h' ->
  ((0 < w)%Z -> (0 < h)%Z -> (0 < w')%Z -> (0 < h')%Z ->
    exists sim sp, apply_otf_to_image img gsd kr rng otf kd df ki ifov = Ok (sim, sp)
      /\ Z.of_nat (cols sim) = w /\ Z.of_nat (rows sim) = h
      /\ Z.of_nat (cols sp) = w' /\ Z.of_nat (rows sp) = h')
  /\ ((w' <= 0)%Z \/ (h' <= 0)%Z \/ (w <= 0)%Z \/ (h <= 0)%Z ->
      apply_otf_to_image img gsd kr rng otf kd df ki ifov = Err CvError).
Proof. exact apply_spec. Qed.
Print Assumptions C74_sizes.

Theorem C74_linear : forall a b gsd kr rng otf kd df ki ifov sa sb sp p q, rng <> 0 -> ifov <> 0 ->
  rows b = rows a -> cols b = cols a ->
  apply_otf_to_image a gsd kr rng otf kd df ki ifov = Ok (sa, sp) ->
  apply_otf_to_image b gsd kr rng otf kd df ki ifov = Ok (sb, sp) ->
  exists sc, apply_otf_to_image (lincomb p q a b) gsd kr rng otf kd df ki ifov = Ok (sc, sp)
    /\ rows sc = rows sa /\ cols sc = cols sa
    /\ forall i j, px sc i j = p * px sa i j + q * px sb i j.
Proof. exact apply_linear. Qed.
Print Assumptions C74_linear.

Theorem C74_range : forall img gsd kr rng otf kd df ki ifov sim sp lo hi, rng <> 0 -> ifov <> 0 ->
  apply_otf_to_image img gsd kr rng otf kd df ki ifov = Ok (sim, sp) ->
  (forall psf, otf_to_psf otf kd df (Fin (2 * atan (gsd / 2 / rng))) = Ok psf ->
     forall p q, (p < rows psf)%nat -> (q < cols psf)%nat -> 0 <= px psf p q) ->
  (forall i j, (i < rows img)%nat -> (j < cols img)%nat -> lo <= px img i j <= hi) ->
  forall i j, (i < rows sim)%nat -> (j < cols sim)%nat -> lo <= px sim i j <= hi.
Proof. exact apply_range. Qed.
Print Assumptions C74_range.

(* a perfect system on the same grid returns the picture itself *)
Theorem C74_perfect_system : forall a gsd kr rng otf kd ki n, nonempty a -> 0 < gsd -> 0 < rng ->
  crows otf = n -> ccols otf = n -> (11 <= n)%nat ->
  (forall p q, (p < n)%nat -> (q < n)%nat -> re otf p q = 1 /\ im otf p q = 0) ->
  exists sim sp, apply_otf_to_image a gsd kr rng otf kd (1 / (INR n * (2 * atan (gsd / 2 / rng)))) ki (gsd / rng) = Ok (sim, sp)
    /\ rows sim = rows a /\ cols sim = cols a
    /\ forall y x, (y < rows a)%nat -> (x < cols a)%nat -> px sim y x = px a y x.
Proof. exact perfect_system. Qed.
Print Assumptions C74_perfect_system.

Theorem C74_zero_range : forall img gsd otf kd df ki ifov,
  apply_otf_to_image img gsd Py 0 otf kd df ki ifov = Err ZeroDivisionError.
Proof. exact apply_zero_range. Qed.
Print Assumptions C74_zero_range.

Theorem C74_zero_ifov : forall img gsd rng otf kd df psf, rng <> 0 -> nonempty img ->
  otf_to_psf otf kd df (Fin (2 * atan (gsd / 2 / rng))) = Ok psf ->
  apply_otf_to_image img gsd Py rng otf kd df Py 0 = Err ZeroDivisionError.
Proof. exact apply_zero_ifov. Qed.
Print Assumptions C74_zero_ifov.

(* a numpy range of zero (as simulate_image computes it) raises another exception *)
Theorem C74_zero_range_numpy : forall img gsd otf kd df psf ki ifov, 0 < gsd -> 0 < ifov -> nonempty img ->
  otf_to_psf otf kd df (Fin PI) = Ok psf ->
  apply_otf_to_image img gsd Np 0 otf kd df ki ifov = Err OverflowError.
Proof. exact apply_zero_range_np. Qed.
Print Assumptions C74_zero_range_numpy.

(* 1 m pixels seen from 100 m at half the resolution, flat 10 x 10 kernel *)
Example C74_example : exists sim sp,
  apply_otf_to_image ramp5 1 Py 100 dc12 Py (1 / (12 * (2 * atan (1 / 2 / 100)))) Py (1 / 50) = Ok (sim, sp)
  /\ cols sim = 2%nat /\ rows sim = 2%nat /\ cols sp = 5%nat.
Proof.
  assert (AP : 0 < 2 * atan (1 / 2 / 100)).
  { assert (0 < atan (1 / 2 / 100)); [|lra]. rewrite <- atan_0. apply atan_increasing. lra. }
  destruct (dc12_psf Py (2 * atan (1 / 2 / 100)) AP) as (psf & EP & Pr & Pc & _).
  assert (H2 : half_even (INR 5 * (1 / 100) / (1 / 50)) 2).
  { split; [|intros _; reflexivity]. replace (IZR 2 - INR 5 * (1 / 100) / (1 / 50)) with (- / 2) by (simpl INR; field). rewrite Rabs_Ropp, Rabs_pos_eq by lra. lra. }
  assert (H5 : half_even (INR 10 * (1 / 100) / (1 / 50)) 5).
  { replace (INR 10 * (1 / 100) / (1 / 50)) with (IZR 5) by (simpl INR; field). apply half_even_IZR. }
  destruct (apply_spec ramp5 1 Py 100 dc12 Py (1 / (12 * (2 * atan (1 / 2 / 100)))) Py (1 / 50) psf 2 2 5 5) as [S _];
    [split; cbn; lia | lra | lra | exact EP | exact H2 | exact H2 | rewrite Pc; exact H5 | rewrite Pr; exact H5 |].
  destruct S as (sim & sp & E & A & B & C & D); try lia. exists sim, sp. split; [exact E|]. lia.
Qed.

(** ** C94 *)
(* the extra output for health checks can make the simulation fail *)
Theorem C94_small_kernel : forall img gsd kr rng otf kd df ki ifov psf,
  nonempty img -> 0 < gsd -> 0 < rng ->
  otf_to_psf otf kd df (Fin (2 * atan (gsd / 2 / rng))) = Ok psf ->
  2 * INR (cols psf) * (gsd / rng) < ifov ->
  apply_otf_to_image img gsd kr rng otf kd df ki ifov = Err CvError.
Proof. exact apply_small_kernel. Qed.
Print Assumptions C94_small_kernel.

(* although the picture alone can be resampled: 1000 x 1000 pixels to 40 x 40 *)
Example C94_example :
  let scene := {| rows := 1000; cols := 1000; px := fun _ _ => 1 |} in
  let df := 1 / (12 * (2 * atan (1 / 2 / 100))) in
  apply_otf_to_image scene 1 Py 100 dc12 Py df Py 0.25 = Err CvError
  /\ exists b, resample_2D Py scene (Fin (1 / 100)) (Fin 0.25) = Ok b /\ cols b = 40%nat /\ rows b = 40%nat.
Proof.
  intros scene df. assert (AP : 0 < 2 * atan (1 / 2 / 100)).
  { assert (0 < atan (1 / 2 / 100)); [|lra]. rewrite <- atan_0. apply atan_increasing. lra. }
  destruct (dc12_psf Py (2 * atan (1 / 2 / 100)) AP) as (psf & EP & Pr & Pc & _).
  assert (NE : nonempty scene) by (split; apply Nat.lt_0_succ). split.
  - apply (apply_small_kernel scene 1 Py 100 dc12 Py df Py 0.25 psf NE); [lra | lra | exact EP|].
    rewrite Pc. simpl INR. lra.
  - assert (I : INR 1000 = 1000) by (rewrite INR_IZR_INZ; reflexivity).
    assert (H : half_even (INR 1000 * (1 / 100) / 0.25) 40).
    { replace (INR 1000 * (1 / 100) / 0.25) with (IZR 40) by (rewrite I; lra). apply half_even_IZR. }
    destruct (resample_size Py scene (1 / 100) 0.25 40 40 NE ltac:(lra) H H) as [S _].
    destruct S as (b & E & A & B); [lia | lia|]. exists b. split; [exact E|]. lia.
Qed.

(** ** C104 *)
(* odd kernels that are symmetric about their centre: blurring is convolution *)
Theorem C104_symmetric_kernel : forall a k b e, filter2D a k = Ok b -> (2 <= rows a)%nat -> (2 <= cols a)%nat ->
  mirrored (rows a) (cols a) (px a) e ->
  Nat.odd (rows k) = true -> Nat.odd (cols k) = true ->
  (forall p q, (p < rows k)%nat -> (q < cols k)%nat -> px k (rows k - 1 - p)%nat (cols k - 1 - q)%nat = px k p q) ->
  forall y x, px b y x = convolution (rows k) (cols k) (px k) e (Z.of_nat y) (Z.of_nat x).
Proof. exact filter_convolution. Qed.
Print Assumptions C104_symmetric_kernel.

(* full statement: a system whose transfer function is that of a displacement by
   s rows and t columns displaces the picture by s rows and t columns.  False: *)
Theorem C104_displacement_refuted :
  ~ (forall a gsd kr rng otf kd ki n s t sim sp, nonempty a -> 0 < gsd -> 0 < rng ->
      crows otf = n -> ccols otf = n -> (12 <= n)%nat -> Nat.even n = true -> (Z.abs s <= 4)%Z -> (Z.abs t <= 4)%Z ->
      (forall p q, (p < n)%nat -> (q < n)%nat ->
         re otf p q = cos (moved_phase n s t p q) /\ im otf p q = - sin (moved_phase n s t p q)) ->
      apply_otf_to_image a gsd kr rng otf kd (1 / (INR n * (2 * atan (gsd / 2 / rng)))) ki (gsd / rng) = Ok (sim, sp) ->
      forall y x y' x', (y < rows a)%nat -> (x < cols a)%nat -> (y' < rows a)%nat -> (x' < cols a)%nat ->
      (Z.of_nat y' = Z.of_nat y + s)%Z -> (Z.of_nat x' = Z.of_nat x + t)%Z -> px sim y' x' = px a y x).
Proof. exact displaced_refuted. Qed.
Print Assumptions C104_displacement_refuted.

(* the picture moves the other way *)
Theorem C104_moves_backwards : forall a gsd kr rng otf kd ki n s t, nonempty a -> 0 < gsd -> 0 < rng ->
  crows otf = n -> ccols otf = n -> (12 <= n)%nat -> Nat.even n = true -> (Z.abs s <= 4)%Z -> (Z.abs t <= 4)%Z ->
  (forall p q, (p < n)%nat -> (q < n)%nat ->
     re otf p q = cos (moved_phase n s t p q) /\ im otf p q = - sin (moved_phase n s t p q)) ->
  exists sim sp, apply_otf_to_image a gsd kr rng otf kd (1 / (INR n * (2 * atan (gsd / 2 / rng)))) ki (gsd / rng) = Ok (sim, sp)
    /\ rows sim = rows a /\ cols sim = cols a
    /\ forall y x y' x', (y < rows a)%nat -> (x < cols a)%nat -> (y' < rows a)%nat -> (x' < cols a)%nat ->
       (Z.of_nat y' = Z.of_nat y + s)%Z -> (Z.of_nat x' = Z.of_nat x + t)%Z -> px sim y x = px a y' x'.
Proof. exact displaced. Qed.
Print Assumptions C104_moves_backwards.

(* a one-column displacement; the middle column receives its right neighbour *)
Example C104_example : exists sim sp,
  apply_otf_to_image stripe 1 Py 100 one_right Py (1 / (INR 12 * (2 * atan (1 / 2 / 100)))) Py (1 / 100) = Ok (sim, sp)
  /\ px sim 0 1 = 2.
Proof.
  destruct (displaced stripe 1 Py 100 one_right Py Py 12 0 1) as (sim & sp & E & _ & _ & P);
    try (cbn; lia); try lra; try reflexivity; [split; cbn; lia | intros; split; reflexivity |].
  exists sim, sp. split; [exact E|]. rewrite (P 0%nat 1%nat 0%nat 2%nat); cbn; try lia. lra.
Qed.
