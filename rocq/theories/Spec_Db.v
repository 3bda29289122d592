(** * Spec_Db: what the atmosphere database promises (docstrings of utils.py),
    written without reference to the loaders. *)
From Coq Require Import Reals ZArith List.
From Verif Require Import Model_DbTable Model_Db.
Import ListNotations.
Open Scope R_scope.

(* "The database includes the following altitude options" (metres), as listed
   in the docstrings; 24500 m is listed but is not used for interpolation *)
Definition doc_altitudes : list R :=
  [2; 32.55; 75; 150; 225; 500;
   1000; 2000; 3000; 4000; 5000; 6000; 7000; 8000; 9000; 10000; 11000; 12000;
   14000; 16000; 18000; 20000].

(* "0 100 500 1000 to 20000 in 1000 meter steps, 22000 to 80000 in 2000 m
   steps, and 85000 to 300000 in 5000 meter steps" *)
Definition steps (a d : Z) (n : nat) : list Z :=
  map (fun i => (a + Z.of_nat i * d)%Z) (seq 0 n).
Definition zranges : list Z :=
  [0; 100; 500]%Z ++ steps 1000 1000 20 ++ steps 22000 2000 30 ++ steps 85000 5000 44.
Definition doc_ranges : list R := map IZR zranges.

(* row i of the decoder file stores (altitude, range, haze) *)
Definition listed (i : Z) (altitude ground_range : R) (ihaze : Z) : Prop :=
  exists a g, In (i, a, g, ihaze) decoder /\ altitude = IZR a / 10 /\ ground_range = IZR g.

(* file i of the database is a table of 1371 rows and 5 columns, written column
   by column, with entries d *)
Definition stored (st : store) (i : Z) (d : nat -> nat -> R) : Prop :=
  exists f, st i = Some f /\ file_size f = 6855%nat /\
    d = fun r c => file_value f (c * 1371 + r)%nat.
(* no file of the directory has another size *)
Definition intact (st : store) : Prop :=
  forall i f, st i = Some f -> file_size f = 6855%nat.
(* every file named by the decoder is there, whole *)
Definition complete (st : store) : Prop :=
  forall i a g h, In (i, a, g, h) decoder -> exists d, stored st i d.

(* lo and hi are the tightest grid values around x *)
Definition tight (grid : list R) (x lo hi : R) : Prop :=
  In lo grid /\ In hi grid /\ lo <= x <= hi /\
  (forall y, In y grid -> y <= x -> y <= lo) /\
  (forall y, In y grid -> x <= y -> hi <= y).

(* x = (1-t) lo + t hi, with t = 0 when lo = hi *)
Definition weight (x lo hi t : R) : Prop :=
  0 <= t <= 1 /\ x = (1 - t) * lo + t * hi /\ (lo = hi -> t = 0).

(* neighbouring grid values *)
Definition adjacent (grid : list R) (a b : R) : Prop :=
  In a grid /\ In b grid /\ a < b /\ (forall y, In y grid -> y <= a \/ b <= y).

(* largest stored ground range (m) for each usable altitude (m) *)
Definition reach : list (R * R) :=
  [(2, 5000); (75, 30000); (150, 42000); (225, 52000); (500, 78000);
   (1000, 110000); (2000, 155000); (3000, 195000); (4000, 225000); (5000, 250000);
   (6000, 275000); (7000, 295000); (8000, 300000); (9000, 300000); (10000, 300000);
   (11000, 300000); (12000, 300000); (14000, 300000); (16000, 300000); (18000, 300000);
   (20000, 300000)].
