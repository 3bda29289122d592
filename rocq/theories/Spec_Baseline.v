(** * Spec_Baseline: the wavelengths of the atmosphere database (C116). *)
From Coq Require Import Reals List Sorted.
From Verif Require Import Base_XR Model_Rad Spec_Rad.
Import ListNotations.
Open Scope R_scope.

(* a sample every 10 nm, up to a hundredth of that; the one at 390 nm brings light *)
Definition every_ten_nm (rows : list arow) : Prop :=
  sound_rows rows /\ StronglySorted Rlt (map a_wl rows) /\
  (forall a, In a rows -> exists k : Z, Rabs (a_wl a - IZR k * (10 / 10 ^ 9)) <= 0.1 / 10 ^ 9) /\
  exists a, In a rows /\ Rabs (a_wl a - 390 / 10 ^ 9) <= 0.1 / 10 ^ 9 /\ 0 < scene_radiance 1 300 a.
