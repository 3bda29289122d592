(** * Prop_EdgeSystem: sampling error of the edge responses niirs5 rates (C132) *)
From Coq Require Import Reals Lra List.
From Coquelicot Require Import Coquelicot.
From Verif Require Import Base_XR Base_Np Model_Geo Model_Db Model_Scenario Model_Sensor Model_Rad Model_Otf Model_Met
  Spec_Geo Spec_Rad Spec_Otf Spec_Chain Spec_Met Spec_Whole Spec_Rating Spec_EdgeError Spec_EdgeSystem
  Proof_RadP Proof_NiirsDemo Proof_StackDemo Proof_Rating Proof_EdgeSystem.
Import ListNotations.
Open Scope R_scope.

(* the aperture changes by at most 4/pi per cutoff frequency, more by the factor 1/(1-eta) if a part of it is covered *)
Theorem C132_aperture : forall k u v u' v' l D eta, 0 < l -> 0 < D -> eta < 1 ->
  exists a a', circular_aperture_OTF k u v l D eta = Ok (Fin a) /\ circular_aperture_OTF k u' v' l D eta = Ok (Fin a') /\
    Rabs (a - a') <= 4 * l / (PI * (1 - Rmax 0 eta) * D) * Rabs (sqrt (u * u + v * v) - sqrt (u' * u' + v' * v')).
Proof. exact aperture_slope. Qed.
Print Assumptions C132_aperture.

(* both edge responses of niirs5 are those of the transfer function of camera and atmosphere, up to the error of fifty trapezoids;
   turbulence adds at most 1.8 D / r0 at the shortest wavelength to the roughness *)
Theorem C132_niirs5 : forall ni it diag s c itp m em tr q, loaded ni it c itp m -> good_camera s ->
  (em = true <-> emissive_band s) -> good_atmosphere s em (atm_rows m) -> 0 < altitude c -> response_curves s tr q ->
  (0 < plain c Cn2At1m -> 0 <= plain c AircraftSpeed) -> forall s1 c1 mt, niirs5 ni it diag s c itp = (s1, c1, Ok mt) ->
  let L := dist (above earth_radius 0 (ground_range c / earth_radius)) (above earth_radius (altitude c) 0) in
  exists rows lmin r1, seen_rows s (atm_rows m) rows /\ (0 < plain c Cn2At1m -> seeing c L r1) /\
    let ps := charge_spectrum s tr q (giqe_target em) rows in
    In lmin (map fst ps) /\ (forall p, In p ps -> lmin <= fst p) /\
    let t := share s (Rmax (charge s tr q (giqe_target em) rows) (charge s tr q (giqe_background em) rows)) * s_int_time s in
    let W := s_D s / lmin in
    let mtf u v := Rabs (system_mtf (with_int_time s t) c ps r1 u v) in
    let T := if Rlt_dec 0 (plain c Cn2At1m) then 1.8 * (s_D s / r_at r1 lmin) else 0 in
    forall lmax, (forall p, In p ps -> fst p <= lmax) -> (0 < plain c Cn2At1m -> lmax <= 4 * lmin) ->
    exists r0 r90 x x' y y', f_rer_0 mt = Fin r0 /\ f_rer_90 mt = Fin r90 /\
      blurred_edge (fun w => mtf w 0) W (s_px s / s_f s * (1 / 2)) x /\ blurred_edge (fun w => mtf w 0) W (s_px s / s_f s * - (1 / 2)) x' /\
      blurred_edge (fun w => mtf 0 w) W (s_py s / s_f s * (1 / 2)) y /\ blurred_edge (fun w => mtf 0 w) W (s_py s / s_f s * - (1 / 2)) y' /\
      Rabs (r0 - (x - x')) <= 2 * edge_error (PI * Rabs (s_px s / s_f s) * W)
        (T + roughness W (s_eta s) lmin lmax (s_wx s / s_f s) (s_sx s) (s_dax s * (t * s_ntdi s)) (s_pv s) (s_pv_wl s) (s_Lx s)) W 50 /\
      Rabs (r90 - (y - y')) <= 2 * edge_error (PI * Rabs (s_py s / s_f s) * W)
        (T + roughness W (s_eta s) lmin lmax (s_wy s / s_f s) (s_sy s) (s_day s * (t * s_ntdi s)) (s_pv s) (s_pv_wl s) (s_Ly s)) W 50.
Proof. exact niirs5_near. Qed.
Print Assumptions C132_niirs5.

(* a telescope with a secondary mirror of 40 percent of its diameter *)
Example C132_example_aperture : exists a a', circular_aperture_OTF Np 100000 0 (1 / 10 ^ 6) 0.3 0.4 = Ok (Fin a) /\
  circular_aperture_OTF Np 0 0 (1 / 10 ^ 6) 0.3 0.4 = Ok (Fin a') /\
  Rabs (a - a') <= 4 * (1 / 10 ^ 6) / (PI * (1 - Rmax 0 0.4) * 0.3) * Rabs (sqrt (100000 * 100000 + 0 * 0) - sqrt (0 * 0 + 0 * 0)).
Proof. apply C132_aperture; lra. Qed.
(* a thermal camera in calm air: the hypotheses hold, and the run ends with numbers *)
Example C132_example_calm :
  let c := {| ihaze := 1; altitude := 9000; ground_range := 60000; interp := false;
              plain := fun a => match a with Cn2At1m => 0 | HaWindSpeed => 21 | _ => 290 end; cache := None |} in
  let s := thermal [[1]] 1 in
  loaded demo_load demo_load c false demo_m /\ good_camera s /\ (true = true <-> emissive_band s) /\ good_atmosphere s true (atm_rows demo_m) /\
  0 < altitude c /\ (exists tr q, response_curves s tr q) /\ plain c Cn2At1m <= 0 /\
  exists s1 c1 mt, niirs5 demo_load demo_load no_diag s c false = (s1, c1, Ok mt).
Proof. exact calm_demo. Qed.
(* the same camera in the turbulence of a normal day, seen wavelengths from 8 to 12 micrometres *)
Example C132_example_turbulent : let s := thermal [[1]] 1 in
  loaded demo_load demo_load demo_scen false demo_m /\ good_camera s /\ (true = true <-> emissive_band s) /\
  good_atmosphere s true (atm_rows demo_m) /\ 0 < altitude demo_scen /\ (exists tr q, response_curves s tr q) /\ 0 < plain demo_scen Cn2At1m /\
  0 <= plain demo_scen AircraftSpeed /\ (exists s1 c1 mt, niirs5 demo_load demo_load no_diag s demo_scen false = (s1, c1, Ok mt)) /\
  forall tr q rows, seen_rows s (atm_rows demo_m) rows -> forall p, In p (charge_spectrum s tr q (giqe_target true) rows) -> 8 / 10 ^ 6 <= fst p <= 12 / 10 ^ 6.
Proof. exact windy_demo. Qed.
