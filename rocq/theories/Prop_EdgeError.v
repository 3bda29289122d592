(** * Prop_EdgeError: sampling error of the edge response (C131) *)
From Coq Require Import Reals Lra Lia List.
From Coquelicot Require Import Coquelicot.
From Verif Require Import Base_XR Model_Geo Model_Rad Model_Otf Model_Met Spec_Met Spec_EdgeError Proof_EdgeError Proof_Overshoot.
Import ListNotations.
Open Scope R_scope.

(* the edge response is the image of a step up to the error of the trapezoids and the shifted frequencies *)
Theorem C131_edge_response : forall m W L n x ifov, 0 < W -> 0 <= L -> (0 < n)%nat -> gentle m W L -> transfer m W ->
  exists r e, edge_response x (samples m W n) (W / INR n) ifov = Ok (Fin r) /\ blurred_edge m W (ifov * x) e /\
    Rabs (r - e) <= edge_error (2 * PI * Rabs (ifov * x) * W) L W n.
Proof. exact response_near. Qed.
Print Assumptions C131_edge_response.

Theorem C131_relative_edge_response : forall m W L n ifov, 0 < W -> 0 <= L -> (0 < n)%nat -> gentle m W L -> transfer m W ->
  exists r e e', relative_edge_response (samples m W n) (W / INR n) ifov = Ok (Fin r) /\
    blurred_edge m W (ifov * (1 / 2)) e /\ blurred_edge m W (ifov * - (1 / 2)) e' /\
    Rabs (r - (e - e')) <= 2 * edge_error (PI * Rabs ifov * W) L W n.
Proof. exact relative_near. Qed.
Print Assumptions C131_relative_edge_response.

(* the overshoot: one of nine responses up to the error; of a clearly rising edge the one at 1.25 pixels, of an edge that clearly falls
   somewhere the largest *)
Theorem C131_overshoot : forall m W L n ifov, 0 < W -> 0 <= L -> (0 < n)%nat -> gentle m W L -> transfer m W ->
  let E := edge_error (6 * PI * Rabs ifov * W) L W n in
  exists r e, edge_height_overshoot (samples m W n) (W / INR n) ifov = Ok (Fin r) /\
    (forall k, (k < 9)%nat -> blurred_edge m W (ifov * overshoot_place k) (e k)) /\
    (exists k, (k < 9)%nat /\ Rabs (r - e k) <= E) /\
    ((forall k, (k < 8)%nat -> e k + 2 * E < e (S k)) -> Rabs (r - e 1%nat) <= E) /\
    ((exists k, (k < 8)%nat /\ e (S k) + 2 * E <= e k) ->
       (forall k, (k < 9)%nat -> e k <= r + E) /\ exists k, (k < 9)%nat /\ r - E <= e k).
Proof. exact overshoot_near. Qed.
Print Assumptions C131_overshoot.

(* the hypotheses hold for the samples circular_aperture_OTF returns for a lens without obscuration *)
Theorem C131_perfect_lens : forall l D n ifov, 0 < l -> 0 < D -> (0 < n)%nat ->
  exists mtf r e e', mapM (fun i => circular_aperture_OTF Np (D / l / INR n * INR i) 0 l D 0) (seq 0 n) = Ok (map Fin mtf) /\
    relative_edge_response mtf (D / l / INR n) ifov = Ok (Fin r) /\
    blurred_edge (lens (D / l)) (D / l) (ifov * (1 / 2)) e /\ blurred_edge (lens (D / l)) (D / l) (ifov * - (1 / 2)) e' /\
    Rabs (r - (e - e')) <= 2 * edge_error (PI * Rabs ifov * (D / l)) (4 / PI) (D / l) n.
Proof. exact lens_near. Qed.
Print Assumptions C131_perfect_lens.

(* fifty samples alone do not make the error small: it depends on the size of the pixels *)
Theorem C131_any_pixel_refuted : ~ (forall m W L n ifov, 0 < W -> 0 <= L -> (50 <= n)%nat -> 0 < ifov -> gentle m W L -> transfer m W ->
  exists r e e', relative_edge_response (samples m W n) (W / INR n) ifov = Ok (Fin r) /\
    blurred_edge m W (ifov * (1 / 2)) e /\ blurred_edge m W (ifov * - (1 / 2)) e' /\ Rabs (r - (e - e')) <= 0.4).
Proof. exact uniform. Qed.
Print Assumptions C131_any_pixel_refuted.

(* the camera of the examples in the repository (27.5 cm aperture, 4 m focal length, 8 micrometre pixels) at 580 nm, 50 samples *)
Example C131_example_camera : exists mtf r e e',
  mapM (fun i => circular_aperture_OTF Np (0.275 / 0.00000058 / INR 50 * INR i) 0 0.00000058 0.275 0) (seq 0 50) = Ok (map Fin mtf) /\
  relative_edge_response mtf (0.275 / 0.00000058 / INR 50) 0.000002 = Ok (Fin r) /\
  blurred_edge (lens (0.275 / 0.00000058)) (0.275 / 0.00000058) (0.000002 * (1 / 2)) e /\
  blurred_edge (lens (0.275 / 0.00000058)) (0.275 / 0.00000058) (0.000002 * - (1 / 2)) e' /\ Rabs (r - (e - e')) <= 0.035.
Proof.
  destruct (C131_perfect_lens 0.00000058 0.275 50%nat 0.000002 ltac:(lra) ltac:(lra) ltac:(lia)) as (mtf & r & e & e' & A & B & C & D & E).
  exists mtf, r, e, e'. split; [exact A|]. split; [exact B|]. split; [exact C|]. split; [exact D|]. eapply Rle_trans; [exact E|]. unfold edge_error.
  replace (INR 50) with 50 by (rewrite INR_IZR_INZ; reflexivity). rewrite (Rabs_pos_eq 0.000002) by lra.
  set (q := 0.000002 * (0.275 / 0.00000058)). assert (Q : 0 < q <= 0.949) by (unfold q; lra).
  replace (PI * 0.000002 * (0.275 / 0.00000058)) with (PI * q) by (unfold q; rewrite Rmult_assoc; reflexivity). assert (P := PI_RGT_0). assert (P4 := PI_4).
  assert (Q2 : q ^ 2 <= 0.901) by nra. set (V := 2 * 10 ^ 6 * (0.275 / 0.00000058)). assert (HV : 9 * 10 ^ 11 <= V) by (unfold V; lra).
  replace (2 * (((PI * q * (4 / PI) + (PI * q) ^ 2 / 2) / (4 * 50) + PI * q * (4 / PI) / (2 * 50 ^ 2) + (PI * q) ^ 2 / V) / PI))
    with (8 * q * / PI * (/ 200 + / 5000) + PI * q ^ 2 * (/ 200 + 2 * / V)) by (field; lra).
  assert (HI : / PI <= / 3) by (apply Rinv_le_contravar; [lra|]; generalize PI2_3_2; lra).
  assert (HJ : / V <= / (9 * 10 ^ 11)) by (apply Rinv_le_contravar; lra). assert (0 < / V) by (apply Rinv_0_lt_compat; lra).
  assert (PI * q ^ 2 <= 4 * 0.901) by nra. assert (q * / PI <= 0.949 * / 3) by (apply Rmult_le_compat; try lra; left; apply Rinv_0_lt_compat; lra).
  assert (0 <= PI * q ^ 2) by nra. nra.
Qed.
(* a triangular transfer function: half a pixel from the edge, with pixels of one period of the last frequency *)
Example C131_example_triangle : exists r e, edge_response (1 / 2) (samples (fun w => 1 - w / 1000) 1000 50) (1000 / INR 50) 0.001 = Ok (Fin r) /\
  blurred_edge (fun w => 1 - w / 1000) 1000 (0.001 * (1 / 2)) e /\ Rabs (r - e) <= edge_error (2 * PI * Rabs (0.001 * (1 / 2)) * 1000) 1 1000 50.
Proof.
  apply C131_edge_response; try lra; [lia | |].
  - intros a b Ha Hb. unfold Rabs; repeat destruct (Rcase_abs _); lra.
  - split; [intros w Hw; apply Rabs_le; lra | lra].
Qed.
(* a rising edge seen with small pixels *)
Example C131_example_overshoot : exists r e, edge_height_overshoot (samples (fun w => 1 - w) 1 50) (1 / INR 50) (1 / 600) = Ok (Fin r) /\
  blurred_edge (fun w => 1 - w) 1 (1 / 600 * (5 / 4)) e /\ Rabs (r - e) <= 0.0001.
Proof. exact ramp_demo. Qed.
