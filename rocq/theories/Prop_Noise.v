(** * Prop_Noise: theorems about noise.py (C06-C08). *)
From Coq Require Import Floats.
From Coq Require Import List ZArith Lia Permutation Reals Lra.
From Coquelicot Require Import Coquelicot.
From Verif Require Import Base_XR Model_Noise Model_F64 Spec_Noise Proof_Noise Proof_F64.
Import ListNotations.
Open Scope R_scope.

(** ** C06 *)
Theorem C06_noise_gain_raises_iff :
  forall k, noise_gain k = Err ValueError <-> total k <> 1.
Proof. exact noise_gain_raises_total. Qed.
Print Assumptions C06_noise_gain_raises_iff.

(* filtering uncorrelated pixel noise multiplies its standard deviation by
   the returned gain *)
Theorem C06_noise_gain_is_std_ratio :
  forall k om s, total k = 1 -> white om (length k) s ->
    exists ng, noise_gain k = Ok (Fin ng) /\ 0 <= ng /\
      expect om (fun x => filtered 0 k x * filtered 0 k x) = (ng * s) * (ng * s).
Proof. exact noise_gain_is_std_ratio. Qed.
Print Assumptions C06_noise_gain_is_std_ratio.

Theorem C06_noise_gain_value :
  forall k, total k = 1 ->
    exists ng, noise_gain k = Ok (Fin ng) /\ 0 <= ng /\ ng * ng = total (map (fun w => w * w) k).
Proof. exact noise_gain_value. Qed.
Print Assumptions C06_noise_gain_value.

Theorem C06_noise_gain_lower_bound :
  forall k ng, noise_gain k = Ok (Fin ng) -> 1 / sqrt (INR (length k)) <= ng.
Proof. exact noise_gain_lower. Qed.
Print Assumptions C06_noise_gain_lower_bound.

Theorem C06_noise_gain_minimal_iff_box :
  forall k, noise_gain k = Ok (Fin (1 / sqrt (INR (length k)))) <->
    total k = 1 /\ forall x, In x k -> x = 1 / INR (length k).
Proof. exact noise_gain_box. Qed.
Print Assumptions C06_noise_gain_minimal_iff_box.

Theorem C06_smoothing_never_amplifies :
  forall k, total k = 1 -> (forall x, In x k -> 0 <= x) ->
    exists ng, noise_gain k = Ok (Fin ng) /\ 0 < ng <= 1.
Proof. exact noise_gain_le_1. Qed.
Print Assumptions C06_smoothing_never_amplifies.

Theorem C06_identity_kernel_gain_one :
  forall n m, noise_gain (repeat 0 n ++ [1] ++ repeat 0 m) = Ok (Fin 1).
Proof. exact noise_gain_identity. Qed.
Print Assumptions C06_identity_kernel_gain_one.

(* a two-pixel kernel and a four-point space of independent +-1 noise *)
Example C06_ex : total [1/4; 3/4] = 1 /\
  white [(1/4, fun _ => 1); (1/4, fun i => if Nat.eqb i 0 then 1 else -1);
         (1/4, fun i => if Nat.eqb i 0 then -1 else 1); (1/4, fun _ => -1)] 2 1.
Proof.
  split; [simpl; lra|]. intros i j Hi Hj.
  destruct i as [|[|i]]; [| |lia]; (destruct j as [|[|j]]; [| |lia]); simpl; lra.
Qed.

(** ** C07 *)
Theorem C07_decimal_kernel_accepted_refuted :
  ~ (forall cents : list Z, (length cents < 8)%nat ->
       fold_right Z.add 0%Z cents = 100%Z ->
       noise_gain_f64 (map f_cent cents) <> Err ValueError).
Proof. exact decimal_kernels_refuted. Qed.
Print Assumptions C07_decimal_kernel_accepted_refuted.

(* the witness does not depend on the order of the entries *)
Theorem C07_witness_in_every_order :
  forall k, Permutation (map f_cent [-8; 116; -8]%Z) k -> noise_gain_f64 k = Err ValueError.
Proof. exact sharpen_rejected. Qed.
Print Assumptions C07_witness_in_every_order.

Example C07_ex : noise_gain_f64 (map f_cent [-25; 150; -25]%Z) = Ok (PrimFloat.sqrt 2.375).
Proof. exact exact_kernel_accepted. Qed.

(** ** C08 *)
Theorem C08_quantization_noise_is_uniform_std :
  forall r b, 0 < r -> 0 < b ->
    exists s, quantization_noise r b = Fin s /\ 0 < s /\
      let q := r / (Rpower 2 b - 1) in
      is_RInt (fun e => e * e / q) (- (q / 2)) (q / 2) (s * s).
Proof. exact qn_is_uniform_std. Qed.
Print Assumptions C08_quantization_noise_is_uniform_std.

Theorem C08_quantization_noise_decreasing :
  forall r b1 b2, 0 < r -> 0 < b1 -> b1 < b2 ->
    exists s1 s2, quantization_noise r b1 = Fin s1 /\ quantization_noise r b2 = Fin s2 /\ s2 < s1.
Proof. exact qn_decreasing. Qed.
Print Assumptions C08_quantization_noise_decreasing.

Theorem C08_quantization_noise_linear :
  forall r b k, 0 < b ->
    exists s, quantization_noise r b = Fin s /\ quantization_noise (k * r) b = Fin (k * s).
Proof. exact qn_linear. Qed.
Print Assumptions C08_quantization_noise_linear.

Theorem C08_quantization_noise_zero_bits :
  forall r, (0 < r -> quantization_noise r 0 = PInf) /\ (r = 0 -> quantization_noise r 0 = NaN).
Proof. exact qn_zero_bits. Qed.
Print Assumptions C08_quantization_noise_zero_bits.

(* an n-bit converter: 2^n codes, 2^n - 1 steps *)
Theorem C08_quantization_noise_whole_bits :
  forall r n, (0 < n)%nat ->
    quantization_noise r (INR n) = Fin (r / (2 ^ n - 1) / sqrt 12).
Proof. exact qn_nat. Qed.
Print Assumptions C08_quantization_noise_whole_bits.

Example C08_ex : 0 < 96000 /\ 0 < 11.9 /\ 11.9 < 12.
Proof. repeat split; lra. Qed.
