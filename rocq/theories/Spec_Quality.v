(** * Spec_Quality: what goes into the image quality equations, stated without the model *)
From Coq Require Import Reals List Sorted.
From Verif Require Import Base_XR Model_Rad Model_Sensor Model_Met Spec_Rad Spec_Met.
Import ListNotations.
Open Scope R_scope.

(* lit are the rows at which the target produces photoelectrons, in order *)
Definition lit_rows (s : sensor) (tr q : R -> R) (em : bool) (rows lit : list arow) : Prop :=
  (forall a, In a lit <-> In a rows /\ 0 < electrons s (tr (a_wl a)) (q (a_wl a)) (a_wl a) (giqe_target em a)) /\
  (StronglySorted Rlt (map a_wl rows) -> StronglySorted Rlt (map a_wl lit)).
(* snr and spectral weights are those of the standard target and background,
   at the wavelengths that the camera can see *)
Definition standard_contrast (s : sensor) (all : list arow) (em : bool) (ct : contrast) : Prop :=
  exists rows, seen_rows s all rows /\
    photon_detector_SNR s (map a_wl rows) (map (fun a => Fin (giqe_target em a)) rows)
                        (map (fun a => Fin (giqe_background em a)) rows) = Ok (ct_snr ct) /\
    forall tr q, response_curves s tr q -> exists lit, lit_rows s tr q em rows lit /\
      ct_wl ct = map a_wl lit /\
      ct_w ct = map (fun a => Fin (electrons s (tr (a_wl a)) (q (a_wl a)) (a_wl a) (giqe_target em a))) lit.

(* magnitudes from the middle of a 101 x 101 picture v, stored row by row,
   to the right and upwards *)
Definition rightwards (v : list R) : list R := map (fun i => Rabs (nth (50 * 101 + (50 + i)) v 0)) (seq 0 50).
Definition upwards (v : list R) : list R := map (fun i => Rabs (nth ((50 - i) * 101 + 50) v 0)) (seq 0 50).
Definition slope (mtf : list R) (df ifov : R) : R := 2 * edge_at mtf df ifov (1 / 2) - 1.
(* r is the overshoot: the largest of nine samples of the edge response or, if
   they rise all the way, the second of them *)
Definition overshoot (mtf : list R) (df ifov r : R) : Prop :=
  (exists k, (k < 9)%nat /\ r = edge_at mtf df ifov (overshoot_place k)) /\
  ((forall k, (k < 8)%nat -> edge_at mtf df ifov (overshoot_place k) < edge_at mtf df ifov (overshoot_place (S k))) ->
     r = edge_at mtf df ifov (5 / 4)) /\
  ((exists k, (k < 8)%nat /\ edge_at mtf df ifov (overshoot_place (S k)) <= edge_at mtf df ifov (overshoot_place k)) ->
     forall k, (k < 9)%nat -> edge_at mtf df ifov (overshoot_place k) <= r).
