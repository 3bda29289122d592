(** * Spec_Centre: pictures that are displaced *)
From Coq Require Import Reals Arith ZArith Bool List.
From Flocq Require Import Core.Raux.
From Verif Require Import Base_XR Model_Sensor Model_Rad Spec_Rad Spec_Img Spec_Blur.
Open Scope R_scope.

(* the same seen upside down *)
Definition point_symmetric (n m : nat) (f : nat -> nat -> R) : Prop :=
  forall p q, (p < n)%nat -> (q < m)%nat -> f (n - 1 - p)%nat (m - 1 - q)%nat = f p q.
(* a plane of brightness *)
Definition ramp (a b c : R) (y x : R) : R := a + b * y + c * x.
(* how far the centre of n pixels lies before their pixel n/2 *)
Definition lag (n : Z) : R := if Z.odd n then 0 else / 2.
(* brightness around pixel (y, x) at the pixels a kernel of h x w entries touches *)
Definition plane_near (rows cols : nat) (f : nat -> nat -> R) (h w : nat) (a b c : R) (y x : nat) : Prop :=
  (h / 2 <= y)%nat /\ (y + h <= rows + h / 2)%nat /\ (w / 2 <= x)%nat /\ (x + w <= cols + w / 2)%nat /\
  forall i j, (y - h / 2 <= i < y - h / 2 + h)%nat -> (x - w / 2 <= j < x - w / 2 + w)%nat -> f i j = ramp a b c (INR i) (INR j).

(* pixels of angular size dx across a point spread function with frequency spacing df *)
Definition psf_side (df dx : R) : Z := Z.max 1 (Zfloor (1 / (df * dx))).
(* widths in pixels, and by how many pixels they displace *)
Definition few (d s : nat) : Prop := (d = 5 /\ s = 1)%nat \/ (d = 7 /\ s = 2)%nat \/ (d = 9 /\ s = 2)%nat.
(* entry i of d lies among the middle k (k + 1 when d - k is odd) *)
Definition in_middle (d k i : nat) : bool := Z.leb (Z.abs (2 * Z.of_nat i + 1 - Z.of_nat d)) (Z.of_nat k).
(* the n x n array f, interpolated at d x d points, has more than 95 percent of its sum among the middle k *)
Definition held (n d : nat) (f : nat -> nat -> R) (k : nat) : Prop :=
  let g i j := interpolated n n f (pixel_position n d i) (pixel_position n d j) in
  0 < sum_over d d g /\ 0.95 * sum_over d d g < sum_over d d (fun i j => if in_middle d k i && in_middle d k j then g i j else 0).
(* one of the windows 10, 15, 20, ... (of k or k + 1 samples) takes in all d samples *)
Definition whole_window (d : Z) : Prop := (10 <= d)%Z /\ (d mod 5 <= 1)%Z.
(* sizes for which the 95 percent crop keeps the middle of the d x d array interpolated from an n x n one *)
Definition kept_middle (n : nat) (f : nat -> nat -> R) (d : Z) : Prop :=
  (d <= 3)%Z \/ (Z.of_nat n <= d)%Z \/ whole_window d \/
  exists t, (10 + 5 * t < n)%nat /\ (Z.of_nat (10 + 5 * t) <= d)%Z /\ held n (Z.to_nat d) f (10 + 5 * t).

(* width of the frame on which the point spread function of a camera is computed,
   when a_wl a is the shortest wavelength, in pixels of angular size dx *)
Definition frame_pixels (s : sensor) (dx : R) (a : arow) : R := 750 * a_wl a / s_D s / dx.
(* the row of the shortest wavelength at which a white target at 300 K gives photoelectrons *)
Definition shortest_seen (s : sensor) (tr q : R -> R) (rows : list arow) (a : arow) : Prop :=
  let seen b := In b rows /\ in_band s b /\ 0 < electrons s (tr (a_wl b)) (q (a_wl b)) (a_wl b) (scene_radiance 1 300 b) in
  seen a /\ forall b, seen b -> a_wl a <= a_wl b.
(* frames for which the crop keeps the middle whatever the point spread function *)
Definition middle_anyway (w : R) : Prop := w < 4 \/ 1501 <= w \/ whole_window (Zfloor w).
