(** * Prop_F64Aperture (C123): the obscured aperture in double precision.
    circular_aperture_OTF adds the cross term from two branches: c_1 for rho < (1 - eta) r0 / 2 and c_2 where
    arccos is not nan.  The two conditions are the same in exact arithmetic; in double precision they are rounded
    separately, and where they disagree the cross term is left out or counted twice. *)
From Coq Require Import Reals ZArith Lra Floats List.
From Verif Require Import Base_XR Model_Geo Model_Otf Model_F64 Spec_F64 Model_F64Db Model_F64Aperture Spec_F64Aperture Proof_F64Slice Proof_F64Size
  Proof_Round Proof_F64Aper5 Proof_F64Aper6 Proof_F64Aper7 Proof_F64Aper8 Proof_F64Libm.
Import ListNotations.
Open Scope R_scope.

(* the computed value is the exact one, or exact plus or minus 2 eta^2 / (1 - eta^2); the latter only where
   the edge of the shifted pupil touches the obscuration from inside, within 2^-35 *)
Theorem C123_three_values : forall facos fsin ftan fatan k u v l D e U V L A E, good_libm facos fsin ftan fatan ->
  stands_for u U -> stands_for v V -> stands_for l L -> stands_for D A -> stands_for e E -> usual_aperture U V L A E ->
  exists out g h, circular_aperture_f64 facos fsin ftan fatan u v l D e = Ok out /\ stands_for out g /\
    circular_aperture_OTF k U V L A E = Ok (Fin h) /\
    (Rabs (g - h) <= / 10 ^ 4 \/
     Rabs (2 * rel_freq U V L A - (1 - E)) <= / 2 ^ 35 /\ (Rabs (g - (h + jump E)) <= / 10 ^ 4 \/ Rabs (g - (h - jump E)) <= / 10 ^ 4)).
Proof. exact three. Qed.
Print Assumptions C123_three_values.
Example C123_three_values_meets : good_libm acos_f sin_f tan_f atan_f /\ stands_for 0.5%float 0.5 /\ stands_for 1%float 1 /\ stands_for 2%float 2 /\
  usual_aperture 0.5 0.5 1 2 0.5 /\ usual_aperture 1 0 1 2 0.5.
Proof.
  split; [exact libm_exists|]. split; [apply f_value; [reflexivity|cbn; unfold Flocq.Core.Defs.F2R; simpl; lra]|]. split; [exact f_one|]. split; [exact f_two|].
  assert (H : forall x y, x * x + y * y <= 1 -> usual_aperture x y 1 2 0.5).
  { intros x y Q. unfold usual_aperture. assert (P : 1 <= 2 ^ 199) by (apply pow_R1_Rle; lra). assert (P' : 2 ^ 200 = 2 * 2 ^ 199) by reflexivity.
    assert (I : / 2 ^ 200 <= 1) by (rewrite <- Rinv_1; apply Rinv_le_contravar; lra).
    repeat split; try lra. apply Rle_trans with (R_sqrt.sqrt 1); [apply sqrt_le_1_alt; exact Q|]. rewrite sqrt_1. lra. }
  split; apply H; lra.
Qed.

(* which of the three: decided by the two tests of lines 161 and 164, written out *)
Theorem C123_which : forall facos fsin ftan fatan k u v l D e U V L A E, good_libm facos fsin ftan fatan ->
  stands_for u U -> stands_for v V -> stands_for l L -> stands_for D A -> stands_for e E -> usual_aperture U V L A E ->
  exists out g h, circular_aperture_f64 facos fsin ftan fatan u v l D e = Ok out /\ stands_for out g /\
    circular_aperture_OTF k U V L A E = Ok (Fin h) /\
    let rho := PrimFloat.sqrt (u * u + v * v)%float in let r0 := (D / l)%float in
    Rabs (g - (h + ((if PrimFloat.ltb 1 ((1 + e * e - (2 * rho / r0) * (2 * rho / r0)) / 2 / e)%float then 1 else 0)
                  - (if PrimFloat.ltb rho ((1 - e) * r0 / 2)%float then 1 else 0)) * jump E)) <= / 10 ^ 4.
Proof. exact whole. Qed.
Print Assumptions C123_which.
Example C123_which_meets : good_libm acos_f sin_f tan_f atan_f /\ stands_for 1%float 1 /\ stands_for 0%float 0 /\ stands_for 2%float 2 /\ usual_aperture 1 0 1 2 0.5.
Proof.
  split; [exact libm_exists|]. split; [exact f_one|]. split; [exact f_0|]. split; [exact f_two|]. exact (proj2 (proj2 (proj2 (proj2 (proj2 C123_three_values_meets))))).
Qed.

(* without obscuration there is no cross term and the computed value is right everywhere *)
Theorem C123_unobscured : forall facos fsin ftan fatan k u v l D e U V L A E, good_libm facos fsin ftan fatan ->
  stands_for u U -> stands_for v V -> stands_for l L -> stands_for D A -> stands_for e E ->
  / 2 ^ 200 <= L <= 2 ^ 200 -> / 2 ^ 200 <= A <= 2 ^ 200 -> R_sqrt.sqrt (U * U + V * V) <= 2 * (A / L) -> E <= 0 ->
  exists out g h, circular_aperture_f64 facos fsin ftan fatan u v l D e = Ok out /\ stands_for out g /\
    circular_aperture_OTF k U V L A E = Ok (Fin h) /\ Rabs (g - h) <= / 10 ^ 6.
Proof. exact unobscured. Qed.
Print Assumptions C123_unobscured.
Example C123_unobscured_meets : good_libm acos_f sin_f tan_f atan_f /\ stands_for 1%float 1 /\ stands_for 0%float 0 /\ stands_for 2%float 2 /\
  / 2 ^ 200 <= 1 <= 2 ^ 200 /\ / 2 ^ 200 <= 2 <= 2 ^ 200 /\ R_sqrt.sqrt (1 * 1 + 0 * 0) <= 2 * (2 / 1).
Proof.
  split; [exact libm_exists|]. split; [exact f_one|]. split; [exact f_0|]. split; [exact f_two|].
  destruct (proj2 (proj2 (proj2 (proj2 (proj2 C123_three_values_meets))))) as (H1 & H2 & _ & H4). auto.
Qed.

(* the example configuration of the repository (D = 0.273 m, eta = 0.4, band from 0.50 um), 101 x 101 grid of the NIIRS
   model: at eight points the computed aperture OTF exceeds the exact value by more than 0.38 *)
Theorem C123_example_configuration_refuted : forall facos fsin ftan fatan row col, good_libm facos fsin ftan fatan -> In (row, col) example_points ->
  exists g h, grid_values facos fsin ftan fatan 101 row col example_wavelength example_D example_eta g h /\ h + 0.38 <= g.
Proof. exact grid_lost. Qed.
Print Assumptions C123_example_configuration_refuted.
Example C123_example_configuration_meets : good_libm acos_f sin_f tan_f atan_f /\ In (38, 41)%nat example_points /\ length example_points = 8%nat.
Proof. split; [exact libm_exists|]. split; [left; reflexivity|reflexivity]. Qed.
(* at the other 10193 points it is right *)
Theorem C123_other_points : forall facos fsin ftan fatan row col, good_libm facos fsin ftan fatan -> (row < 101)%nat -> (col < 101)%nat -> ~ In (row, col) example_points ->
  exists g h, grid_values facos fsin ftan fatan 101 row col example_wavelength example_D example_eta g h /\ Rabs (g - h) <= / 10 ^ 4.
Proof. exact grid_fine. Qed.
Print Assumptions C123_other_points.
Example C123_other_points_meets : good_libm acos_f sin_f tan_f atan_f /\ ~ In (50, 65)%nat example_points.
Proof. split; [exact libm_exists|]. intros H. repeat (destruct H as [H|H]; [discriminate H|]). destruct H. Qed.

(* 1501 x 1501 grid of simulate_image: two entries opposite each other with respect to the centre; their exact values are
   the same up to 10^-4, the computed ones differ by 0.38 *)
Theorem C123_symmetry_refuted : forall facos fsin ftan fatan, good_libm facos fsin ftan fatan ->
  exists g h g' h', grid_values facos fsin ftan fatan 1501 930 885 example_wavelength example_D example_eta g h /\
    grid_values facos fsin ftan fatan 1501 (1500 - 930) (1500 - 885) example_wavelength example_D example_eta g' h' /\
    Rabs (h - h') <= / 10 ^ 4 /\ g' + 0.38 <= g.
Proof. exact mirror. Qed.
Print Assumptions C123_symmetry_refuted.
Example C123_symmetry_meets : good_libm acos_f sin_f tan_f atan_f. Proof. exact libm_exists. Qed.

(* the same telescope with eta = 0.6: at eight points of the NIIRS grid, four of them on the axes, the cross term is counted
   twice and the computed OTF is negative although the exact one lies between 0 and 1 *)
Theorem C123_negative_refuted : forall facos fsin ftan fatan row col, good_libm facos fsin ftan fatan -> In (row, col) wide_points ->
  exists g h, grid_values facos fsin ftan fatan 101 row col example_wavelength example_D wide_eta g h /\ 0 <= h <= 1 /\ g <= h - 1.12 /\ g <= - 0.12.
Proof. exact grid_negative. Qed.
Print Assumptions C123_negative_refuted.
Example C123_negative_meets : good_libm acos_f sin_f tan_f atan_f /\ In (50, 40)%nat wide_points.
Proof. split; [exact libm_exists|]. right; right; left; reflexivity. Qed.

(* of the 1371 wavelengths of the database, taken as the start of the band, at least 422 have such a point *)
Theorem C123_how_many_wavelengths : forall facos fsin ftan fatan, good_libm facos fsin ftan fatan ->
  exists ws, NoDup ws /\ length ws = 422%nat /\ forall i, In i ws -> (i < 1371)%nat /\
    exists row col g h, (row < 101)%nat /\ (col < 101)%nat /\
      grid_values facos fsin ftan fatan 101 row col (wavelength_f64 i) example_D example_eta g h /\ h + 0.38 <= g.
Proof. exact bad_ok. Qed.
Print Assumptions C123_how_many_wavelengths.
Example C123_how_many_wavelengths_meets : good_libm acos_f sin_f tan_f atan_f. Proof. exact libm_exists. Qed.
