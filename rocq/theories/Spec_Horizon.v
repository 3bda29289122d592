(** * Spec_Horizon: what "until the ground range exceeds the distance to the
    spherical earth horizon" means (docstrings of utils.py,
    atms/atmosphere_README.txt), in plane geometry. *)
From Coq Require Import Reals List.
From Verif Require Import Spec_Geo.
Import ListNotations.
Open Scope R_scope.

(* the straight line from the ground point at arc distance g to the sensor at
   height h does not pass below the surface *)
Definition in_sight (h g : R) : Prop :=
  forall f, 0 <= f <= 1 ->
    0 <= height earth_radius (along (above earth_radius 0 (g / earth_radius)) (on_axis earth_radius h) f).

(* "Database altitudes include (km): .002 .0325 .075 .15 .225 .5, 1 to 12 in 1
   km steps, and 14 to 20 in 2 km steps, 24.5 km", in metres *)
Definition readme_altitudes : list R :=
  [2; 32.5; 75; 150; 225; 500;
   1000; 2000; 3000; 4000; 5000; 6000; 7000; 8000; 9000; 10000; 11000; 12000;
   14000; 16000; 18000; 20000; 24500].
