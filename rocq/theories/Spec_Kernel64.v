(** * Spec_Kernel64: kernels whose entries binary64 holds exactly (C07) *)
From Coq Require Import Reals ZArith List.
From Flocq Require Import Core.
Open Scope R_scope.

Definition z_sum (l : list Z) : Z := fold_right Z.add 0%Z l.
(* the binary64 number nearest to r *)
Definition nearest (r : R) : R := round radix2 (FLT_exp (-1074) 53) ZnearestE r.
