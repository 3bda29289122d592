(** * Prop_Kernel64: property C07, kernels that binary64 holds exactly *)
From Coq Require Import Reals ZArith Lia Floats List.
From Verif Require Import Base_XR Model_F64 Spec_F64 Spec_Kernel64 Proof_Kernel64.
Import ListNotations.
Open Scope R_scope.

(* entries z / 2^e: rejected exactly if they do not sum to one (no rounding occurs, so the order of the additions does not matter) *)
Theorem C07_exact_kernel_raises_iff : forall e k zs, (0 <= e <= 500)%Z -> Forall2 (fun x z => stands_for x (IZR z / IZR (2 ^ e))) k zs ->
  (z_sum (map Z.abs zs) <= 2 ^ 53)%Z -> (noise_gain_f64 k = Err ValueError <-> z_sum zs <> (2 ^ e)%Z).
Proof. exact kernel_raises. Qed.
Print Assumptions C07_exact_kernel_raises_iff.

(* the gain is then the root of the sum of squares, rounded once *)
Theorem C07_exact_kernel_gain : forall e k zs, (0 <= e <= 500)%Z -> Forall2 (fun x z => stands_for x (IZR z / IZR (2 ^ e))) k zs ->
  (z_sum (map Z.abs zs) <= 2 ^ 53)%Z -> z_sum zs = (2 ^ e)%Z -> (z_sum (map (fun z => z * z)%Z zs) <= 2 ^ 53)%Z ->
  exists y, noise_gain_f64 k = Ok y /\ stands_for y (nearest (R_sqrt.sqrt (IZR (z_sum (map (fun z => z * z)%Z zs))) / IZR (2 ^ e))).
Proof. exact kernel_gain. Qed.
Print Assumptions C07_exact_kernel_gain.

(* kernels written with the decimals .00, .25, .50 and .75 *)
Theorem C07_quarters : forall qs, (z_sum (map Z.abs qs) <= 2 ^ 26)%Z ->
  let k := map (fun q => f_cent (25 * q)) qs in
  (noise_gain_f64 k = Err ValueError <-> z_sum qs <> 4%Z) /\
  (z_sum qs = 4%Z -> exists y, noise_gain_f64 k = Ok y /\ stands_for y (nearest (R_sqrt.sqrt (IZR (z_sum (map (fun q => q * q)%Z qs))) / 4))).
Proof. exact quarters. Qed.
Print Assumptions C07_quarters.

(* the sharpening kernel -0.25, 1.5, -0.25 *)
Example C07_example_quarters : exists y, noise_gain_f64 (map (fun q => f_cent (25 * q)) [-1; 6; -1]%Z) = Ok y /\ stands_for y (nearest (R_sqrt.sqrt 38 / 4)).
Proof. destruct (C07_quarters [-1; 6; -1]%Z) as (_ & H); [cbn; lia|]. exact (H eq_refl). Qed.
Example C07_example_exact : (z_sum (map Z.abs [-1; 6; -1]) <= 2 ^ 53)%Z /\ z_sum [-1; 6; -1]%Z = (2 ^ 2)%Z /\
  (z_sum (map (fun z => z * z) [-1; 6; -1]) <= 2 ^ 53)%Z /\
  Forall2 (fun x z => stands_for x (IZR z / IZR (2 ^ 2))) (map (fun q => f_cent (25 * q)) [-1; 6; -1]%Z) [-1; 6; -1]%Z.
Proof. split; [cbn; lia|]. split; [reflexivity|]. split; [cbn; lia|]. repeat constructor; apply quarter; cbn; lia. Qed.
