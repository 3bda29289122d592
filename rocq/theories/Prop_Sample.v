(** * Prop_Sample: the trapezoidal rule of signal_rate against the exact band integral (C128). *)
From Coq Require Import Reals Lra Lia List.
From Coquelicot Require Import Coquelicot.
From Verif Require Import Base_XR Base_Np Model_Sensor Model_Db Model_Rad Spec_Rad Spec_Sample Proof_Rad Proof_RadP Proof_Sample Proof_SampleDemo.
Import ListNotations.
Open Scope R_scope.

(** ** C128 *)
Theorem C128_sampled_rate :
  forall s t q T T0 m h wl dark, physical s -> 0 <= t -> 0 <= q -> 0 < T0 -> T0 <= T ->
    (forall U, In U [s_T_shield s; s_T_opt s; s_T_filt s] -> U = 0 \/ T0 <= U) -> 0 < m -> fine h wl -> (forall x, In x wl -> m <= x) ->
    exists other r E dN J, sensor_other_irradiance s wl = Ok other /\
      signal_rate wl (blackbody_radiance wl T) (map (fun _ => t) wl) (s_D s) (s_f s) (s_wx s) (s_wy s) (map (fun _ => q) wl) other dark
      = Ok (Fin r, E, dN) /\
      is_RInt (thermal_spectrum s t q T) (hd 0 wl) (last wl 0) J /\ 0 <= J /\
      Rabs (r - dark - J) <= ((h_planck * c_light / k_boltz / (m * T0) + 5) * h / m) ^ 2 / 8 * J.
Proof. exact thermal_rate_near. Qed.
Print Assumptions C128_sampled_rate.

(* the 10 nm spacing of the atmosphere database, from 3 micrometres and from 8 micrometres on *)
Theorem C128_database_spacing :
  forall s t q T wl dark, physical s -> 0 <= t -> 0 <= q -> 70 <= T ->
    (forall U, In U [s_T_shield s; s_T_opt s; s_T_filt s] -> U = 0 \/ 70 <= U) ->
    fine (1 / 10 ^ 8) wl -> (forall x, In x wl -> 3 / 10 ^ 6 <= x) ->
    exists other r E dN J, sensor_other_irradiance s wl = Ok other /\
      signal_rate wl (blackbody_radiance wl T) (map (fun _ => t) wl) (s_D s) (s_f s) (s_wx s) (s_wy s) (map (fun _ => q) wl) other dark
      = Ok (Fin r, E, dN) /\
      is_RInt (thermal_spectrum s t q T) (hd 0 wl) (last wl 0) J /\ 0 <= J /\ Rabs (r - dark - J) <= 8 / 10 ^ 3 * J /\
      ((forall x, In x wl -> 8 / 10 ^ 6 <= x) -> Rabs (r - dark - J) <= 2 / 10 ^ 4 * J).
Proof. exact database_near. Qed.
Print Assumptions C128_database_spacing.

(* on the short side of the photon peak the sampled count is never below the exact one *)
Theorem C128_never_under :
  forall s t q T m wl dark, physical s -> 0 <= t -> 0 <= q -> 0 <= T ->
    m * T <= 1.987 / 10 ^ 3 -> m * s_T_shield s <= 1.987 / 10 ^ 3 -> m * s_T_opt s <= 1.987 / 10 ^ 3 -> m * s_T_filt s <= 1.987 / 10 ^ 3 ->
    ascending wl -> (forall x, In x wl -> 0 < x <= m) ->
    exists other r E dN J, sensor_other_irradiance s wl = Ok other /\
      signal_rate wl (blackbody_radiance wl T) (map (fun _ => t) wl) (s_D s) (s_f s) (s_wx s) (s_wy s) (map (fun _ => q) wl) other dark
      = Ok (Fin r, E, dN) /\
      is_RInt (thermal_spectrum s t q T) (hd 0 wl) (last wl 0) J /\ J <= r - dark.
Proof. exact thermal_rate_over. Qed.
Print Assumptions C128_never_under.

(* the long-wave half of the database grid and a cooled camera with warm optics; the exact count is positive *)
Example C128_ex : physical (demo_sensor 1000) /\
  (forall U, In U [s_T_shield (demo_sensor 1000); s_T_opt (demo_sensor 1000); s_T_filt (demo_sensor 1000)] -> U = 0 \/ 70 <= U) /\
  fine (1 / 10 ^ 8) (map wavelength (seq 770 601)) /\ (forall x, In x (map wavelength (seq 770 601)) -> 8 / 10 ^ 6 <= x) /\
  0 < thermal_spectrum (demo_sensor 1000) 1 0.5 300 (9 / 10 ^ 6).
Proof. exact sample_demo. Qed.
(* mid-wave samples at room temperature *)
Example C128_under_ex : ascending [4 / 10 ^ 6; 5 / 10 ^ 6; 6 / 10 ^ 6] /\ 6 / 10 ^ 6 * 300 <= 1.987 / 10 ^ 3 /\
  (forall x, In x [4 / 10 ^ 6; 5 / 10 ^ 6; 6 / 10 ^ 6] -> 0 < x <= 6 / 10 ^ 6).
Proof. simpl. repeat split; try lra; destruct H as [<-|[<-|[<-|[]]]]; lra. Qed.
