(** * Spec_F64Db: what the atmosphere loaders promise, for binary64 arguments *)
From Coq Require Import Reals ZArith List Floats.
From Verif Require Import Model_F64 Model_DbTable Model_Db Model_F64Db Spec_F64.
Import ListNotations.
Open Scope R_scope.

(* the row (i, a, g, h) of the decoder file is asked for: the altitude is the
   number nearest to a/10 metres and the range is g metres (minus zero counts as
   zero) *)
Definition asked (altitude ground_range : float) (a g : Z) : Prop :=
  PrimFloat.eqb altitude (tenths a) = true /\ PrimFloat.eqb ground_range (f_of_Z g) = true.

(* not a number that vanishes when it is divided by 1000 *)
Definition not_tiny (x : float) : Prop := forall r, stands_for x r -> r = 0 \/ / 2 ^ 1000 <= Rabs r.

(* a directory of whole files; the binary64 numbers are the converted columns of
   the files: the transmission as stored, radiances multiplied by 1e10 *)
Definition same_files (st : store_f64) (files : store) : Prop := forall n,
  (st n = None /\ files n = None) \/
  exists d f, st n = Some d /\ files n = Some f /\ file_size f = 6855%nat /\
    forall i, (i < 1371)%nat -> stands_for (d i 0%nat) (file_value f i) /\
      forall c, (1 <= c < 5)%nat -> stands_for (d i c) (10 ^ 10 * file_value f (c * 1371 + i)%nat).

(* entry (i, c) of every file lies between 0 and b *)
Definition entries_within (st : store_f64) (i c : nat) (b : R) : Prop :=
  forall n d, st n = Some d -> exists v, stands_for (d i c) v /\ 0 <= v <= b.

(* the marks of the wavelength column: 0.30, 0.31, ... 14.00 micrometres *)
Definition mark (i : nat) : R := (30 + INR i) / 10 ^ 8.
(* every file named by the decoder is there *)
Definition complete_f64 (st : store_f64) : Prop :=
  forall i a g h, In (i, a, g, h) decoder -> exists d, st i = Some d.
