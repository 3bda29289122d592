(** * Prop_Reading: property C52, values between the samples. *)
From Coq Require Import Reals List.
From Verif Require Import Base_XR Base_Np Model_Otf Spec_Filter Spec_Reading Proof_Reading.
Import ListNotations.
Open Scope R_scope.

(** ** C52 *)
(* every value: linear interpolation over triangles in a table of the kernel's response; diag is the
   choice of diagonals made by the interpolator *)
Theorem C52_reading : forall diag u v kernel ifov, 0 < ifov ->
  exists h, filter_OTF diag u v kernel ifov = Ok (Fin h) /\ reading diag kernel ifov u v h.
Proof. exact filter_reads. Qed.
Print Assumptions C52_reading.

(* which determines it *)
Theorem C52_one_reading : forall f k ifov u v h h', reading f k ifov u v h -> reading f k ifov u v h' -> h = h'.
Proof. exact reading_one. Qed.
Print Assumptions C52_one_reading.

(* a quarter of a cycle per pixel along the rows: a quarter of the way between columns 74 and 75, half
   way between rows 49 and 50 *)
Example C52_reading_example : forall f k h, reading f k 1 (1 / 4) 0 h ->
  exists wa wb wc wd, wa + wb + wc + wd = 1 /\ wb + wd = 1 / 4 /\ wc + wd = 1 / 2 /\
    h = wa * gain k (-1 / 100) (24 / 100) + wb * gain k (-1 / 100) (25 / 100) + wc * gain k 0 (24 / 100) + wd * gain k 0 (25 / 100).
Proof. exact reading_demo. Qed.
