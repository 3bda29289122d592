(** * Spec_TurnSim: pictures turned about the diagonal *)
From Coq Require Import Reals List.
From Verif Require Import Base_XR Model_Img Model_Sim.
Open Scope R_scope.

(* rows and columns change places *)
Definition flip (a : img) : img := {| rows := cols a; cols := rows a; px := fun i j => px a j i |}.
Definition xflip (a : ximg) : ximg := {| xrows := xcols a; xcols := xrows a; xpx := fun i j => xpx a j i |}.
Definition flip_reference (r : reference) : reference :=
  {| sr_img := flip (sr_img r); sr_gsd := sr_gsd r; sr_pix := sr_pix r; sr_refl := sr_refl r |}.
(* the same random numbers for the same pixel of the scene *)
Definition flip_draws (d : draws) : draws :=
  {| d_count := fun lam i j => d_count d lam j i; d_normal := fun i j => d_normal d j i |}.
