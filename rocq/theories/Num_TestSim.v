(** * Num_TestSim: sensors, reference images and reflectances on the cases of
    /repo/tests/sensor/test_sensor.py, /repo/tests/simulation/test_ref_image.py and
    /repo/tests/simulation/test_simulation.py.

    A one-dimensional test image is a picture of one row here.  Left out: the
    pixels of the picture file, and the atmosphere arrays of the snapshots. *)
From Coq Require Import Reals ZArith List Bool Lra Lia FunctionalExtensionality.
From Interval Require Import Tactic.
From Verif Require Import Base_XR Base_Np Model_Geo Model_Scenario Model_Sensor Model_Img Model_Sim Spec_Test Num_TestTac.
Import ListNotations.
Open Scope R_scope.

(* test_sensor.py: 38-249, defaults *)
Example test_sensor_defaults : forall D f p_x wl, p_x <> 0 -> exists s,
  sensor_init D f p_x wl 0 None None None default_kw = Ok s
  /\ s_eta s = 0 /\ s_py s = s_px s /\ s_wx s = s_px s /\ s_wy s = s_px s / s_wx s * s_py s
  /\ s_int_time s = 1 /\ s_dark s = 0 /\ s_other_irr s = 0 /\ s_read s = 0 /\ s_max_n s = 10 ^ 8
  /\ s_max_fill s = 1 /\ s_bits s = 100 /\ s_ntdi s = 1 /\ s_T_shield s = 70 /\ s_T_opt s = 270
  /\ s_e_opt s = 0 /\ s_t_filt s = 1 /\ s_T_filt s = 70 /\ s_e_filt s = 0 /\ s_sx s = 0 /\ s_sy s = 0
  /\ s_dax s = 0 /\ s_day s = 0 /\ s_pv s = 0 /\ s_pv_wl s = 6.33e-7
  /\ s_D s = D /\ s_f s = f /\ s_px s = p_x /\ s_owl s = wl.
Proof.
  intros D f p_x wl N. unfold sensor_init, pydiv. replace (Reqb p_x 0) with false by (symmetry; now apply Reqb_false).
  eexists. split; [reflexivity|]. repeat split; cbn; lra.
Qed.
(* ... and given values: 51 p_y = 0, 60 w_x = 10, 69 w_y = 0, 78 int_time = 0 and the others *)
Example test_sensor_given : forall D f p_x wl, exists s,
  sensor_init D f p_x wl 1 (Some 0) (Some 10) (Some 0)
    {| k_int_time := 0; k_dark := 1; k_other_irr := 1; k_read := 1; k_max_n := 10 ^ 7; k_max_fill := 0; k_bits := 0;
       k_ntdi := 0; k_T_shield := 1; k_T_opt := 1; k_e_opt := 1; k_t_filt := 0; k_T_filt := 1; k_e_filt := 1;
       k_sx := 1; k_sy := 1; k_dax := 1; k_day := 1; k_pv := 1; k_pv_wl := 6.34e-6 |} = Ok s
  /\ s_eta s = 1 /\ s_py s = 0 /\ s_wx s = 10 /\ s_wy s = 0 /\ s_int_time s = 0 /\ s_dark s = 1 /\ s_other_irr s = 1
  /\ s_read s = 1 /\ s_max_n s = 10 ^ 7 /\ s_max_fill s = 0 /\ s_bits s = 0 /\ s_ntdi s = 0 /\ s_T_shield s = 1
  /\ s_T_opt s = 1 /\ s_e_opt s = 1 /\ s_t_filt s = 0 /\ s_T_filt s = 1 /\ s_e_filt s = 1 /\ s_sx s = 1 /\ s_sy s = 1
  /\ s_dax s = 1 /\ s_day s = 1 /\ s_pv s = 1 /\ s_pv_wl s = 6.34e-6.
Proof. intros. eexists. split; [reflexivity|]. repeat split. Qed.

(* test_ref_image.py:31 *)
Example test_ref_image : forall img gsd, img <> [] ->
  (exists r, ref_image_init img gsd None None = Ok r)
  /\ ref_image_init img gsd (Some [0.05; 0.95]) None = Err ValueError
  /\ (exists r, ref_image_init img gsd None (Some [0.05; 0.95]) = Ok r /\ ri_refl r = [0.05; 0.95])
  /\ exists r, ref_image_init img gsd (Some [0.05; 0.95]) (Some [0.1; 0.9]) = Ok r
       /\ ri_img r = img /\ ri_gsd r = gsd /\ ri_pix r = [0.05; 0.95] /\ ri_refl r = [0.1; 0.9].
Proof.
  intros img gsd N. destruct img as [|x l]; [congruence|]. unfold ref_image_init, percentile.
  repeat rdec1. cbv beta iota delta [andb bind]. 
  split; [eauto|]. split; [reflexivity|]. split; [eexists; split; reflexivity|]. eexists; repeat split.
Qed.

(* test_ref_image.py:44: the picture of the test, altitudes 1000 m and 10000 m *)
Definition snapshot_of (f D alt : R) (o : sensor * world) : Prop :=
  let s := fst o in let c := sc (snd o) in
  near 0 f (s_f s) /\ near 0 D (s_D s) /\ near 0 D (s_Lx s) /\ near 0 D (s_Ly s)
  /\ near 0 2e-5 (s_px s) /\ near 0 2e-5 (s_py s) /\ near 0 2e-5 (s_wx s) /\ near 0 2e-5 (s_wy s)
  /\ s_owl s = [380 / 10 ^ 9; 700 / 10 ^ 9] /\ s_otr s = [1; 1] /\ s_qe s = [1; 1] /\ s_frames s = 1 /\ s_int_time s = 1
  /\ altitude c = alt /\ ground_range c = 0 /\ ihaze c = 1%Z
  /\ plain c TargetReflectance = 0.15 /\ plain c BackgroundReflectance = 0.07
  /\ plain c TargetTemperature = 295 /\ plain c BackgroundTemperature = 293
  /\ plain c AircraftSpeed = 0 /\ plain c HaWindSpeed = 0 /\ plain c Cn2At1m = 0.
Example test_estimate_capture_parameters : forall ri, ri_gsd ri = 3.19 / 160 ->
  returns (snapshot_of 1.0031347962382444 0.10833855799731913 1000) (estimate_capture_parameters ri 1000)
  /\ returns (snapshot_of 10.031347962382446 1.0833855799376628 10000) (estimate_capture_parameters ri 10000).
Proof.
  intros ri G. unfold estimate_capture_parameters. rewrite G.
  split; cbv beta iota zeta delta [pydiv bind median2 sensor_init]; repeat (rdec1; cbv beta iota delta [bind xdiv]);
  cbv beta iota zeta delta [returns snapshot_of fst snd]; repeat match goal with |- _ /\ _ => split end;
  try reflexivity; cbv beta iota delta [s_f s_D s_Lx s_Ly s_px s_py s_wx s_wy]. all: near_num.
Qed.

(* test_simulation.py:17, 31, 55 *)
Definition row (l : list R) : img := {| rows := 1; cols := length l; px := fun _ j => nth j l 0 |}.
Example test_img_to_reflectance_value_error :
  img_to_reflectance (row []) [] [] = Err ValueError /\ img_to_reflectance (row [0]) [] [] = Err ValueError
  /\ img_to_reflectance (row []) [0] [] = Err ValueError /\ img_to_reflectance (row []) [] [0] = Err ValueError.
Proof. repeat split. Qed.
Lemma two_point_image : forall img a b c d, a <= b ->
  img_to_reflectance img [a; b] [c; d] = Ok {| xrows := rows img; xcols := cols img;
    xpx := fun i j => truncate01 (xadd (xmul (xdiv (Fin (d - c)) (Fin (b - a))) (Fin (px img i j - a))) (Fin c)) |}.
Proof.
  intros img a b c d H. unfold img_to_reflectance, interp1d_table. cbn [length Nat.eqb combine bind sort_by fold_right insert_by fst].
  replace (Rleb a b) with true by (symmetry; apply Rleb_true; exact H). cbn [bind].
  assert (E : forall v, extrapolate [(a, c); (b, d)] v = xadd (xmul (xdiv (Fin (d - c)) (Fin (b - a))) (Fin (v - a))) (Fin c)).
  { intros v. unfold extrapolate. cbn [filter fst]. destruct (Rltb a v), (Rltb b v); reflexivity. }
  f_equal. f_equal. apply functional_extensionality. intros i. apply functional_extensionality. intros j. now rewrite E.
Qed.
Lemma line_nan : forall a c v, truncate01 (xadd (xmul (xdiv (Fin (c - c)) (Fin (a - a))) (Fin (v - a))) (Fin c)) = NaN.
Proof.
  intros a c v. unfold xdiv. replace (Reqb (a - a) 0) with true by (symmetry; apply Reqb_true; lra).
  unfold inf_sgn. replace (Rltb 0 (c - c)) with false by (symmetry; apply Rltb_false; lra).
  replace (Rltb (c - c) 0) with false by (symmetry; apply Rltb_false; lra). reflexivity.
Qed.
Lemma line_fin : forall a b c d v, a < b -> 0 <= (d - c) / (b - a) * (v - a) + c <= 1 ->
  truncate01 (xadd (xmul (xdiv (Fin (d - c)) (Fin (b - a))) (Fin (v - a))) (Fin c)) = Fin ((d - c) / (b - a) * (v - a) + c).
Proof.
  intros a b c d v H B. unfold xdiv. replace (Reqb (b - a) 0) with false by (symmetry; apply Reqb_false; lra).
  cbn [xmul xadd]. unfold truncate01. cbn [xlt].
  replace (Rltb 1 ((d - c) / (b - a) * (v - a) + c)) with false by (symmetry; apply Rltb_false; lra). cbn [xlt].
  replace (Rltb ((d - c) / (b - a) * (v - a) + c) 0) with false by (symmetry; apply Rltb_false; lra). reflexivity.
Qed.
Example test_img_to_reflectance_nan :
  returns (fun o => xpx o 0 0 = NaN /\ xpx o 0 1 = NaN) (img_to_reflectance (row [0; 0]) [0; 0] [0; 0])
  /\ returns (fun o => xpx o 0 0 = NaN /\ xpx o 0 1 = NaN) (img_to_reflectance (row [1; 1]) [1; 1] [1; 1]).
Proof. split; rewrite two_point_image by lra; split; apply line_nan. Qed.
Example test_img_to_reflectance :
  returns (fun o => is_near (/ 10 ^ 8) 0 (xpx o 0 0) /\ is_near (/ 10 ^ 8) 1 (xpx o 0 1))
    (img_to_reflectance (row [0; 1]) [0; 1] [0; 1])
  /\ returns (fun o => xrows o = 10%nat /\ xcols o = 10%nat /\ forall i j, is_near (/ 10 ^ 8) 1 (xpx o i j))
    (img_to_reflectance {| rows := 10; cols := 10; px := fun _ _ => 1 |} [0; 1] [0; 2]).
Proof.
  split; rewrite two_point_image by lra.
  - split; cbn [xpx row px nth]; rewrite line_fin by lra; unfold is_near; near_num.
  - split; [reflexivity | split; [reflexivity | intros i j]]. cbn [xpx px].
    replace (truncate01 _) with (Fin 1); [unfold is_near; near_num|].
    unfold xdiv. replace (Reqb (1 - 0) 0) with false by (symmetry; apply Reqb_false; lra).
    cbn [xmul xadd]. unfold truncate01. cbn [xlt].
    replace (Rltb 1 ((2 - 0) / (1 - 0) * (1 - 0) + 0)) with true by (symmetry; apply Rltb_true; lra). cbn [xlt].
    replace (Rltb 1 0) with false by (symmetry; apply Rltb_false; lra). reflexivity.
Qed.
