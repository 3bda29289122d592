(** * Spec_Reading: the frequency response of a kernel, read off a table.
    Mentions nothing of the model. *)
From Coq Require Import Reals List ZArith.
From Verif Require Import Spec_Filter.
Import ListNotations.
Open Scope R_scope.

(* Linear interpolation in a unit square with the values a b in the upper and c d in the lower
   corners, s to the right and t down from a.  The square is cut into two triangles along the
   diagonal a-d (falling) or b-c: of the two corners off the diagonal one has no weight. *)
Definition over_triangle (falling : bool) (a b c d s t h : R) : Prop :=
  exists wa wb wc wd, 0 <= wa /\ 0 <= wb /\ 0 <= wc /\ 0 <= wd /\ wa + wb + wc + wd = 1 /\
    s = wb + wd /\ t = wc + wd /\ (if falling then wb = 0 \/ wc = 0 else wa = 0 \/ wd = 0) /\
    h = wa * a + wb * b + wc * c + wd * d.
(* response in row i, column j of a 100 x 100 table *)
Definition table (k : list (list R)) (i j : nat) : R := gain k ((INR i - 50) / 100) ((INR j - 50) / 100).
(* Column 0 of the table is taken to be at minus and column 99 at plus half a cycle per pixel, row 0 at
   plus and row 99 at minus; other frequencies are folded into that range. *)
Definition reading (falling : nat -> nat -> bool) (k : list (list R)) (ifov u v h : R) : Prop :=
  exists (m1 m2 : Z) i j s t, (i < 99)%nat /\ (j < 99)%nat /\ 0 <= s < 1 /\ 0 <= t <= 1 /\ 0 < INR i + t /\
    u * ifov + IZR m1 = (INR j + s) / 99 - 1 / 2 /\ v * ifov + IZR m2 = 1 / 2 - (INR i + t) / 99 /\
    over_triangle (falling i j) (table k i j) (table k i (j + 1)) (table k (i + 1) j) (table k (i + 1) (j + 1)) s t h.
