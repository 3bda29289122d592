(** * Spec_Defocus: what diffraction says a defocused circular aperture does.

    The transfer function at pupil shift [s] is the integral, over the overlap
    of two unit discs whose centres are [s] apart, of the phase difference of
    the two copies of the pupil.  A defocus with path difference [w] at the
    edge of the pupil adds the phase 2 pi w (x^2 + y^2)/lambda, so the
    difference is a (x - s/2) with a = 4 pi w s/lambda; the overlap is
    symmetric about x = s/2, which leaves the cosine. *)
From Coq Require Import Reals.
From Coquelicot Require Import Coquelicot.
From Verif Require Import Spec_Otf.
Open Scope R_scope.

Definition defocused_overlap (s a : R) : R :=
  RInt (fun x => 2 * Rmin (half_chord 1 x) (half_chord 1 (x - s)) * cos (a * (x - s / 2))) (-1) 1.

(* path difference at the edge of the pupil for a focus error [e] (metres
   along the axis) of a lens of diameter D and focal length f *)
Definition edge_path (D f e : R) : R := e / (2 * (1 + 4 * (f / D * (f / D)))).

Definition phase_slope (l w s : R) : R := 4 * PI * w * s / l.
