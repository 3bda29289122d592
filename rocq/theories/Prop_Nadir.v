(** * Prop_Nadir: looking straight down in double precision *)
From Coq Require Import Reals ZArith Floats List Lra.
From Verif Require Import Base_XR Model_Geo Model_Scenario Model_Sensor Model_Otf Model_Img Model_Met Model_F64 Spec_F64
  Proof_Nadir Proof_NanSpread Proof_NiirsDemo.
Import ListNotations.
Open Scope R_scope.

(* altitudes in eighths of a metre (all whole numbers), up to 1000 km: no rounding at all *)
Theorem C110_eighths_exact : forall fcos facos h k, cosine_of_zero fcos -> stands_for h (IZR k / 8) -> (1 <= k <= 8000000)%Z ->
  slant_range_f64 fcos 0 h 0 = h /\ slant_flat_f64 h 0 = h /\
  niirs_nadir_f64 fcos facos h 0 = facos 1%float /\ simulate_nadir_f64 facos h 0 = facos 1%float.
Proof. exact eighths. Qed.
Print Assumptions C110_eighths_exact.

(* every altitude of the database: the squared slant range is off by at most 0.02 square metres *)
Theorem C110_slant_range : forall fcos h x, cosine_of_zero fcos -> stands_for h x -> 2 <= x <= 24500 ->
  exists b, stands_for (slant_range_f64 fcos 0 h 0) b /\ 0 < b /\ Rabs (b * b - x * x) <= 0.02.
Proof. exact slant_error. Qed.
Print Assumptions C110_slant_range.

(* of the 244981 altitudes 2.0, 2.1, ..., 24500.0 m, 97992 have no nadir angle *)
Theorem C110_niirs_nan : forall fcos facos, cosine_of_zero fcos -> arccos_above_one facos ->
  exists l, NoDup l /\ length l = N.to_nat 97992 /\
    forall m, In m l -> (20 <= m <= 245000)%Z /\ niirs_nadir_f64 fcos facos (tenths m) 0 = nan.
Proof. exact niirs_many. Qed.
Print Assumptions C110_niirs_nan.

Theorem C110_simulate_nan : forall facos, arccos_above_one facos ->
  exists l, NoDup l /\ length l = N.to_nat 97992 /\
    forall m, In m l -> (20 <= m <= 245000)%Z /\ simulate_nadir_f64 facos (tenths m) 0 = nan.
Proof. exact simulate_many. Qed.
Print Assumptions C110_simulate_nan.

(* 1500, 2000, 3000, 4500, 5500, 6500, 7000, 9000, 9500, 11500, 14000 and 14500 feet *)
Theorem C110_flight_levels : forall fcos facos, cosine_of_zero fcos -> arccos_above_one facos ->
  Forall (fun n => niirs_nadir_f64 fcos facos (feet500 n) 0 = nan) [3; 4; 6; 9; 11; 13; 14; 18; 19; 23; 28; 29]%Z.
Proof. exact feet_levels. Qed.
Print Assumptions C110_flight_levels.

(* what follows: from 2000 feet the slant range is shorter than the altitude, and then *)
Theorem C110_shorter : forall fcos, cosine_of_zero fcos ->
  exists h b, stands_for (feet500 4) h /\ stands_for (slant_range_f64 fcos 0 (feet500 4) 0) b /\ 609 < b < h /\ h < 610.
Proof. exact two_thousand_feet. Qed.
Print Assumptions C110_shorter.

(* ... the whole transfer function is nan *)
Theorem C110_system_nan : forall diag k s c pts wl w b t o, 0 < b < altitude c -> 0 < plain c Cn2At1m -> NoDup wl ->
  common_OTFs diag k s c pts wl w b t = Ok o ->
  turb_OTF o = map (fun _ => NaN) pts /\ system_OTF o = map (fun _ => NaN) pts.
Proof. exact short_system. Qed.
Print Assumptions C110_system_nan.

(* ... and so are the ratings of both equations, turbulence or not *)
Theorem C110_rating_nan : forall h b, 0 < b < h -> elev_angle h b = Ok NaN /\
  forall rer gsd eho ng snr r2, giqe4 rer gsd eho ng snr NaN = (NaN, NaN) /\ fst (giqe5 rer r2 gsd snr NaN) = (NaN, NaN).
Proof.
  exact (fun h b H => conj (short_elev h b H) (fun rer gsd eho ng snr r2 => conj (giqe4_nan rer gsd eho ng snr) (giqe5_nan rer r2 gsd snr))).
Qed.
Print Assumptions C110_rating_nan.

(* a real triangle always has an angle at the sensor (C02); in binary64 not even for whole decimetres *)
Theorem C110_never_nan_refuted : ~ forall fcos facos m, cosine_of_zero fcos -> arccos_above_one facos ->
  (20 <= m <= 245000)%Z -> is_nan (niirs_nadir_f64 fcos facos (tenths m) 0) = false.
Proof. exact nadir_refuted. Qed.
Print Assumptions C110_never_nan_refuted.

Example C110_contract : let fcos := fun _ : float => 1%float in let facos := fun x => if PrimFloat.ltb 1 x then nan else 0%float in
  cosine_of_zero fcos /\ arccos_above_one facos /\ arccos_of_one facos /\
  niirs_nadir_f64 fcos facos (tenths 6096) 0 = nan /\ niirs_nadir_f64 fcos facos (tenths 10000) 0 = 0%float.
Proof.
  repeat split; try (vm_compute; reflexivity). intros x H. cbv beta. now rewrite H.
Qed.
Example C110_eighths : stands_for (tenths 10005) (IZR 8004 / 8).
Proof. exact eighth_example. Qed.
Example C110_database : exists x, stands_for (tenths 323) x /\ 2 <= x <= 24500.
Proof. exact database_example. Qed.
Example C110_runs : exists o, common_OTFs no_diag Np (visible [[1]] 1) demo_scen [(1000, 0)] [5 / 10 ^ 7] [Fin 1] 8999 (1 / 100) = Ok o /\
  0 < 8999 < altitude demo_scen /\ 0 < plain demo_scen Cn2At1m /\ NoDup [5 / 10 ^ 7] /\ system_OTF o = [NaN].
Proof.
  destruct (short_runs no_diag (visible [[1]] 1) demo_scen (1000, 0) (5 / 10 ^ 7) (Fin 1) 8999 (1 / 100)) as (o & E); [cbn; lra|cbn; auto|].
  exists o. split; [exact E|]. assert (A : 0 < 8999 < altitude demo_scen) by (cbn; lra).
  assert (B : 0 < plain demo_scen Cn2At1m) by (cbn; lra). assert (C : NoDup [5 / 10 ^ 7]) by (repeat constructor; intros []).
  repeat split; auto; try apply A. exact (proj2 (short_system _ _ _ _ _ _ _ _ _ _ A B C E)).
Qed.
