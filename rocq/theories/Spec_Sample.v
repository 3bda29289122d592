(** * Spec_Sample: sampled and exact band integrals of thermal emission, stated without the model *)
From Coq Require Import Reals List.
From Verif Require Import Model_Sensor Spec_Rad.
Import ListNotations.
Open Scope R_scope.

(* listed in increasing order, neighbours at most h apart *)
Fixpoint fine (h : R) (x : list R) : Prop :=
  match x with
  | x0 :: ((x1 :: _) as x') => x0 <= x1 <= x0 + h /\ fine h x'
  | _ => True
  end.

(* photoelectrons per second and metre of wavelength: a black target of temperature T behind optics of
   transmission t, the emission of the camera itself, pixel of s, quantum efficiency q *)
Definition thermal_spectrum (s : sensor) (t q T lam : R) : R :=
  q * (s_wx s * s_wy s) * (t * (cone (s_D s) (s_f s) * planck lam T) + self_irradiance s lam) / photon_energy lam.
