(** * Spec_Otf: what the transfer functions are supposed to be, without
    reference to the model.

    Plane areas are written by Cavalieri's principle: a disc of radius [r]
    centred at the origin meets the vertical line at abscissa [x] in the
    segment |y| <= half_chord r x. *)
From Coq Require Import Reals List.
From Coquelicot Require Import Coquelicot.
From Verif Require Import Base_XR.
Import ListNotations.
Open Scope R_scope.

Definition half_chord (r x : R) : R := sqrt (Rmax 0 (r * r - x * x)).

(* area common to a disc of radius r1 at the origin and one of radius r2 at (d,0) *)
Definition disc_overlap (r1 r2 d : R) : R :=
  RInt (fun x => 2 * Rmin (half_chord r1 x) (half_chord r2 (x - d))) (- r1) r1.

(* area common to two annuli with radii eta < 1, centres d apart: on each
   vertical line both annuli are the part between the inner and the outer
   chord, above and below the axis *)
Definition annulus_overlap (eta d : R) : R :=
  RInt (fun x => 2 * Rmax 0 (Rmin (half_chord 1 x) (half_chord 1 (x - d))
                             - Rmax (half_chord eta x) (half_chord eta (x - d)))) (-1) 1.

(* displacement, in pupil radii, of the two pupil copies whose overlap is the
   OTF at radial frequency sqrt(u^2+v^2) *)
Definition pupil_shift (u v lambda0 D : R) : R :=
  2 * sqrt (u * u + v * v) * lambda0 / D.

(* Fourier transform at frequency x of the uniform density on [-a/2, a/2] *)
Definition smear_ft (a x : R) : R :=
  / a * RInt (fun t => cos (2 * PI * x * t)) (- a / 2) (a / 2).
