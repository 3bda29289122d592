(** * Prop_F64Slice: how many samples a slice has in double precision (C122) *)
From Coq Require Import Reals ZArith Lia Lra List Floats.
From Verif Require Import Base_XR Base_Np Model_Geo Model_Img Model_F64 Model_F64Slice Spec_F64 Proof_F64Slice.
Import ListNotations.
Open Scope R_scope.

(* an even number of rows: one sample per row from the centre outwards, as in exact arithmetic *)
Theorem C122_even : forall n, (3 <= n <= 2 ^ 25)%Z -> Z.even n = true -> slice_count_f64 n = Ok (n / 2)%Z.
Proof. exact count_even. Qed.
Print Assumptions C122_even.

(* an odd number: one sample more exactly when the spacing, computed from two rounded
   coordinates, is below 2 / (n - 1) *)
Theorem C122_odd : forall n d, (3 <= n <= 2 ^ 25)%Z -> Z.odd n = true -> stands_for (slice_step_f64 n) d ->
  (d * IZR (n - 1) < 2 -> slice_count_f64 n = Ok ((n + 1) / 2)%Z) /\
  (2 <= d * IZR (n - 1) -> slice_count_f64 n = Ok ((n - 1) / 2)%Z).
Proof. exact slice_odd. Qed.
Print Assumptions C122_odd.

(* the spacing is always a finite number near 2 / (n - 1) *)
Theorem C122_step : forall n, (3 <= n <= 2 ^ 25)%Z ->
  exists d, stands_for (slice_step_f64 n) d /\ Rabs (d - 2 / IZR (n - 1)) <= 3 / 2 ^ 53.
Proof. exact slice_step_near. Qed.
Print Assumptions C122_step.

(* one row or none: numpy raises; two rows, one sample *)
Theorem C122_small : (forall n, (n < 2)%Z -> slice_count_f64 n = Err IndexError) /\
  slice_count_f64 2 = Ok 1%Z /\ stands_for (slice_step_f64 2) 2.
Proof. exact slice_small. Qed.
Print Assumptions C122_small.

(* no sample lies outside the array, and each is close to the row it belongs to; a sample too
   many is therefore one on the edge *)
Theorem C122_positions : forall n c i, (3 <= n <= 2 ^ 25)%Z -> slice_count_f64 n = Ok c -> (0 <= i < c)%Z ->
  exists r, stands_for (slice_radius_f64 n i) r /\ 0 <= r <= 1 /\
    Rabs (r - 2 * IZR i / IZR (n - 1)) <= IZR (3 * i + 1) / 2 ^ 53.
Proof. exact slice_positions. Qed.
Print Assumptions C122_positions.

(* against the slice in exact arithmetic: as long, or, for an odd number of rows, one longer *)
Theorem C122_against_exact : forall otf ang l n, slice_otf otf ang = Ok l -> n = Z.of_nat (rows otf) -> (3 <= n <= 2 ^ 25)%Z ->
  slice_count_f64 n = Ok (Z.of_nat (length l)) \/
  (Z.odd n = true /\ slice_count_f64 n = Ok (Z.of_nat (length l) + 1)%Z).
Proof. exact slice_against_exact. Qed.
Print Assumptions C122_against_exact.

(* the ratings take slices of 101 x 101 arrays: 50 samples, as in exact arithmetic *)
Theorem C122_rating_size : slice_count_f64 101 = Ok 50%Z.
Proof. exact slice_101. Qed.
Print Assumptions C122_rating_size.

(* the number of samples is not a function of the exact spacing: for more than half of the odd
   sizes up to 2001 there is one sample more, so for the 1501 x 1501 arrays of simulate_image *)
Theorem C122_edge_left_out_refuted : ~ forall n, (3 <= n <= 2 ^ 25)%Z -> Z.odd n = true -> slice_count_f64 n = Ok ((n - 1) / 2)%Z.
Proof. exact slice_edge_refuted. Qed.
Print Assumptions C122_edge_left_out_refuted.
Theorem C122_how_often : length (filter one_more odd_sizes) = 535%nat.
Proof. exact one_more_count. Qed.
Print Assumptions C122_how_often.

Example C122_example_even : slice_count_f64 10 = Ok 5%Z /\ slice_count_f64 1500 = Ok 750%Z.
Proof. split; apply C122_even; reflexivity || (split; discriminate). Qed.
(* 5 rows: 0, 0.5; 7 rows: 0, 0.3333333333333333, 0.6666666666666665 and 0.9999999999999998 *)
Example C122_example_odd : slice_count_f64 5 = Ok 2%Z /\ slice_count_f64 7 = Ok 4%Z /\
  slice_radius_f64 5 1 = 0.5%float /\ slice_radius_f64 7 3 = 0.99999999999999978%float.
Proof. repeat split; vm_compute; reflexivity. Qed.
(* a slice of a 7 x 7 array: three samples in exact arithmetic, four in double precision *)
Example C122_example_exact : exists l, slice_otf seven 0 = Ok l /\ slice_count_f64 7 = Ok (Z.of_nat (length l) + 1)%Z.
Proof. exact seven_slice. Qed.
