(** * Spec_Gain: gain and offset of a reference image *)
From Coq Require Import Reals List.
From Verif Require Import Base_XR Model_Img.
Open Scope R_scope.

(* every pixel value x becomes a x + b; a < 0 gives a negative *)
Definition remapped (a b : R) (p : img) : img :=
  {| rows := rows p; cols := cols p; px := fun i j => a * px p i j + b |}.
