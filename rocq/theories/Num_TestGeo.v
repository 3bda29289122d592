(** * Num_TestGeo: the models of geospatial.py and noise.py on the cases of
    /repo/tests/geospatial/test_geospatial.py and /repo/tests/noise/test_noise.py.

    Left out: the two stored altitude tables (binary files). *)
From Coq Require Import Reals ZArith List Bool Lra Lia.
From Interval Require Import Tactic.
From Verif Require Import Base_XR Base_Np Model_Geo Model_Noise Spec_Test Num_TestTac.
Import ListNotations.
Open Scope R_scope.

(* 16, 45 *)
Example test_nadir_angle_zero_division :
  nadir_angle Py 0 0 0 = Err ZeroDivisionError /\ nadir_angle Py 1 1 0 = Err ZeroDivisionError
  /\ altitude_along_slant_path Py 0 0 0 = Err ZeroDivisionError
  /\ altitude_along_slant_path Py 1 1 0 = Err ZeroDivisionError.
Proof. repeat split; unfold altitude_along_slant_path, nadir_angle, sdiv, pydiv, r_earth; rdec; reflexivity. Qed.

(* 31 *)
Example test_nadir_angle :
  returns (is_near (/ 10 ^ 8) 3.141592653589793) (nadir_angle Py 1 0 1)
  /\ nadir_angle Py 0 1 1 = Ok (Fin 0)
  /\ returns (is_near (/ 10 ^ 8) 1.5707962484024436) (nadir_angle Py 1 1 1).
Proof.
  unfold nadir_angle, sdiv, pydiv, r_earth; repeat split.
  - rdec1. cbv beta iota zeta delta [rmap bind returns is_near xacos andb].
    match goal with |- context [acos ?q] => replace q with (- (1)) by lra end.
    repeat rdec. rewrite acos_opp, acos_1. near_num.
  - rdec1. cbv beta iota zeta delta [rmap bind returns is_near xacos andb].
    match goal with |- context [acos ?q] => replace q with 1 by lra end.
    repeat rdec. now rewrite acos_1.
  - rdec1. cbv beta iota zeta delta [rmap bind returns is_near xacos andb]. repeat rdec.
    rewrite acos_atan by lra. near_num.
Qed.

(* 77: snapshots 0, 0, 1, 5 *)
Example test_ground_sample_distance :
  ground_sample_distance 1 0 = 0 /\ ground_sample_distance 0 1 = 0
  /\ ground_sample_distance 1 1 = 1 /\ ground_sample_distance 2 2.5 = 5.
Proof. unfold ground_sample_distance; lra. Qed.

(* 92: snapshots sqrt 2, sqrt 2, 1.  The snapshots were taken in double
   precision, where the cosine of 1.6e-7 rounds; the exact values agree with
   them to the relative 1e-5 of np.isclose. *)
Example test_curved_earth_slant_range :
  is_near 0 1.4142135623730951 (curved_earth_slant_range 1 0 1)
  /\ is_near 0 1.4142135623730951 (curved_earth_slant_range 0 1 1)
  /\ is_near 0 1 (curved_earth_slant_range 1 1 1).
Proof.
  unfold curved_earth_slant_range, r_earth, xsqrt, is_near; repeat split;
  match goal with |- context [Rltb ?a 0] =>
    replace (Rltb a 0) with false by (symmetry; apply Rltb_false; interval with (i_prec 120)) end;
  near_num.
Qed.

(* test_noise.py:25; snapshots 0.5 and 0.7071067811865476 *)
Example test_noise_gain :
  returns (is_near 0 0.5) (noise_gain [0.25; 0.25; 0.25; 0.25])
  /\ returns (is_near 0 0.7071067811865476) (noise_gain [0.5; 0.5])
  /\ noise_gain [1.25; 0.25; 0.25; 0.25] = Err ValueError
  /\ noise_gain [-1.25; 0.25; 0.25; 0.25] = Err ValueError.
Proof.
  unfold noise_gain, xsqrt, Rsum, returns, is_near; cbn [map fold_right]; repeat split;
  rdec1; cbn [negb]; repeat rdec; try near_num; reflexivity.
Qed.

(* 39, 50, 62 *)
Example test_quantization_noise :
  quantization_noise 0 0 = NaN /\ quantization_noise 1 0 = PInf
  /\ is_near (/ 10 ^ 8) 0 (quantization_noise 0 1)
  /\ is_near (/ 10 ^ 8) 0.2886751345948129 (quantization_noise 1 1).
Proof.
  unfold quantization_noise, xdiv, is_near, inf_sgn;
  rewrite ?Rpower_O, ?Rpower_1 by lra; repeat split; repeat rdec; try reflexivity; near_num.
Qed.
