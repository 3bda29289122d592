(** * Spec_Geo: plane geometry of a circular Earth, independent of the model.
    The Earth's centre is the origin. *)
From Coq Require Import Reals.
Open Scope R_scope.

(* the radius (m) of the spherical Earth of the documentation *)
Definition earth_radius : R := 6378164.

Definition pt : Type := (R * R)%type.
Definition vsub (p q : pt) : pt := (fst p - fst q, snd p - snd q).
Definition dot (p q : pt) : R := fst p * fst q + snd p * snd q.
Definition norm (p : pt) : R := sqrt (dot p p).
Definition dist (p q : pt) : R := norm (vsub p q).
Definition origin : pt := (0, 0).

(* point at height h above a circle of radius re, at polar angle t from the
   vertical axis *)
Definition above (re h t : R) : pt := ((re + h) * sin t, (re + h) * cos t).

(* point at height h on the vertical axis *)
Definition on_axis (re h : R) : pt := (0, re + h).

(* phi is the (unsigned) angle between the non-zero vectors p and q *)
Definition is_angle (phi : R) (p q : pt) : Prop :=
  0 <= phi <= PI /\ norm p * norm q * cos phi = dot p q.

(* height of a point above the circle *)
Definition height (re : R) (p : pt) : R := norm p - re.

(* the point of the segment from t to s at fraction f of its length *)
Definition along (t s : pt) (f : R) : pt :=
  (fst t + f * (fst s - fst t), snd t + f * (snd s - snd t)).
