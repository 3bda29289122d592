(** * Model_Geo: src/pybsm/geospatial.py, function by function. *)
From Coq Require Import Reals List.
From Verif Require Import Base_XR Base_Np.
Import ListNotations.
Open Scope R_scope.

(* geospatial.py:38  r_earth = 6378.164e3 *)
Definition r_earth : R := 6378164.

(* How the caller's [slant_range] divides: a Python float raises on zero, a
   numpy float64 (as produced by curved_earth_slant_range) does not. *)
Inductive skind := Py | Np.
Definition sdiv (k : skind) (a b : R) : res xr :=
  match k with
  | Py => rmap Fin (pydiv a b)
  | Np => Ok (xdiv (Fin a) (Fin b))
  end.

(* geospatial.py:104-131  nadir_angle
     a = r_earth + h_sensor; b = slant_range; c = r_earth + h_target
     nadir = np.arccos(-1.0 * (c**2.0 - a**2.0 - b**2.0) / (2.0 * a * b))
   Simplified: [slant_range] is a finite number. *)
Definition nadir_angle (k : skind) (h_target h_sensor slant_range : R) : res xr :=
  let a := r_earth + h_sensor in
  let b := slant_range in
  let c := r_earth + h_target in
  let* q := sdiv k (-1 * (c * c - a * a - b * b)) (2 * a * b) in
  Ok (xacos q).

(* geospatial.py:134-155  curved_earth_slant_range
     theta = ground_range / r_earth
     slant_range = np.sqrt(c**2.0 + a**2.0 - 2.0 * a * c * np.cos(theta)) *)
Definition curved_earth_slant_range (h_target h_sensor ground_range : R) : xr :=
  let a := r_earth + h_sensor in
  let c := r_earth + h_target in
  let theta := ground_range / r_earth in
  xsqrt (Fin (c * c + a * a - 2 * a * c * cos theta)).

(* geospatial.py:41-83  altitude_along_slant_path
     b = np.linspace(0.0, slant_range, 10000)
     c = np.sqrt(a**2 + b**2 - 2 * a * b * np.cos(nadir))
     z_path = b; h_path = (c - r_earth)[::-1] *)
Definition n_path : nat := 10000.
Definition altitude_along_slant_path (k : skind) (h_target h_sensor slant_range : R)
  : res (list xr * list xr) :=
  let* nadir := nadir_angle k h_target h_sensor slant_range in
  let a := r_earth + h_sensor in
  let b := linspace 0 slant_range n_path in
  let c := map (fun b =>
             xsqrt (xsub (Fin (a * a + b * b)) (xmul (Fin (2 * a * b)) (xcos nadir)))) b in
  let z_path := map Fin b in
  let h_path := rev (map (fun c => xsub c (Fin r_earth)) c) in
  Ok (z_path, h_path).

(* geospatial.py:86-101  ground_sample_distance: gsd = slant_range * ifov *)
Definition ground_sample_distance (ifov slant_range : R) : R := slant_range * ifov.

(* metrics/functional.py:424 and 574 (inside niirs and niirs5): the slant range
   is the numpy value of line 298/459
     elev_angle = np.pi / 2 - nadir_angle(0.0, scenario.altitude, slant_range) *)
Definition elev_angle (altitude slant_range : R) : res xr :=
  let* n := nadir_angle Np 0 altitude slant_range in
  Ok (xsub (Fin (PI / 2)) n).
