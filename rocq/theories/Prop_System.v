(** * Prop_System: properties C52, C53, C59-C61, C64, C65. *)
From Coq Require Import Reals Lra Lia List ZArith.
From Verif Require Import Base_XR Base_Np Model_Geo Model_Scenario Model_Sensor Model_Otf
  Spec_Filter Spec_System Proof_Otf Proof_Filter Proof_Weight Proof_System.
Import ListNotations.
Open Scope R_scope.

(** ** C52 *)
Theorem C52_bounds : forall diag u v kernel ifov, 0 < ifov ->
  exists h, filter_OTF diag u v kernel ifov = Ok (Fin h)
    /\ 0 <= h <= sum2 (fun a b => Rabs (coef kernel a b))
    /\ (forall lo hi, (forall x y, lo <= gain kernel x y <= hi) -> lo <= h <= hi).
Proof. exact filter_bounds. Qed.
Print Assumptions C52_bounds.

(* at the grid points the value is the kernel's response, whatever the
   triangulation: column j of the grid is at u = nyquist (2 j / 99 - 1) and
   row i at v = nyquist (1 - 2 i / 99) *)
Theorem C52_grid_samples : forall diag kernel ifov i j, 0 < ifov -> (0 < i < 100)%nat -> (j < 99)%nat ->
  filter_OTF diag (0.5 / ifov * (2 * INR j / 99 - 1)) (0.5 / ifov * (1 - 2 * INR i / 99)) kernel ifov
  = Ok (Fin (gain kernel ((INR i - 50) / 100) ((INR j - 50) / 100))).
Proof. exact filter_samples. Qed.
Print Assumptions C52_grid_samples.

Theorem C52_periodic : forall diag u v kernel ifov (m1 m2 : Z), ifov <> 0 ->
  filter_OTF diag (u + IZR m1 / ifov) (v + IZR m2 / ifov) kernel ifov = filter_OTF diag u v kernel ifov.
Proof. exact filter_periodic. Qed.
Print Assumptions C52_periodic.

Theorem C52_zero_ifov : forall diag u v kernel, filter_OTF diag u v kernel 0 = Err ZeroDivisionError.
Proof. exact filter_zero_ifov. Qed.
Print Assumptions C52_zero_ifov.

Example C52_example : (0 < 50 < 100)%nat /\ (50 < 99)%nat
  /\ filter_OTF (fun _ _ => true) 0 0 [[1 / 2; 1 / 2]; [0; 0]] 1 = Ok (Fin ((1 + cos (PI / 100)) / 2)).
Proof. split; [lia|]. split; [lia|]. apply filter_two_tap. lra. Qed.

(** ** C53 *)
(* full statement: for every kernel summing to one the value at zero frequency
   is one.  False: *)
Theorem C53_zero_frequency_is_one_refuted : exists kernel,
  sum2 (coef kernel) = 1
  /\ forall diag ifov, 0 < ifov -> exists h, filter_OTF diag 0 0 kernel ifov = Ok (Fin h) /\ h < 1.
Proof. exact filter_dc_refuted. Qed.
Print Assumptions C53_zero_frequency_is_one_refuted.

(* the sum of the kernel is found 1/99 of the Nyquist frequency away *)
Theorem C53_where_the_sum_is : forall diag kernel ifov, 0 < ifov ->
  filter_OTF diag (0.5 / ifov / 99) (- (0.5 / ifov / 99)) kernel ifov
  = Ok (Fin (Rabs (sum2 (coef kernel)))).
Proof. exact filter_dc_sample. Qed.
Print Assumptions C53_where_the_sum_is.

(** ** C59 *)
Theorem C59_weighted_average : forall (ps : list (R * R)) g G m,
  NoDup (map fst ps) -> Rsum (map snd ps) <> 0 ->
  (forall p, In p ps -> g (fst p) = Ok (map (fun j => Fin (G (fst p) j)) (seq 0 m))) ->
  weighted_by_wavelength (map fst ps) (map (fun p => Fin (snd p)) ps) g
  = Ok (map (fun j => Fin (Rsum (map (fun p => snd p * G (fst p) j) ps) / Rsum (map snd ps))) (seq 0 m)).
Proof. exact weighted_avg. Qed.
Print Assumptions C59_weighted_average.

Theorem C59_stays_in_range : forall (ps : list (R * R)) g G m lo hi, NoDup (map fst ps) ->
  (forall p, In p ps -> 0 <= snd p) -> 0 < Rsum (map snd ps) ->
  (forall p, In p ps -> g (fst p) = Ok (map (fun j => Fin (G (fst p) j)) (seq 0 m))) ->
  (forall p j, In p ps -> (j < m)%nat -> lo <= G (fst p) j <= hi) ->
  exists h : nat -> R, weighted_by_wavelength (map fst ps) (map (fun p => Fin (snd p)) ps) g
    = Ok (map (fun j => Fin (h j)) (seq 0 m)) /\ forall j, (j < m)%nat -> lo <= h j <= hi.
Proof. exact weighted_in_range. Qed.
Print Assumptions C59_stays_in_range.

Theorem C59_weights_are_relative : forall (ps : list (R * R)) g G m k,
  NoDup (map fst ps) -> Rsum (map snd ps) <> 0 -> k <> 0 ->
  (forall p, In p ps -> g (fst p) = Ok (map (fun j => Fin (G (fst p) j)) (seq 0 m))) ->
  weighted_by_wavelength (map fst ps) (map (fun p => Fin (k * snd p)) ps) g
  = weighted_by_wavelength (map fst ps) (map (fun p => Fin (snd p)) ps) g.
Proof. exact weighted_rescale. Qed.
Print Assumptions C59_weights_are_relative.

Example C59_example :
  weighted_by_wavelength [1; 2] [Fin 1; Fin 3] (fun l => Ok [Fin l; Fin (l * l)]) = Ok [Fin (7 / 4); Fin (13 / 4)].
Proof.
  set (G := fun (l : R) j => match j with O => l | _ => l * l end).
  assert (N : NoDup (map fst [(1, 1); (2, 3)])).
  { cbn [map fst]. apply NoDup_cons; [|apply NoDup_cons; [intros [] | apply NoDup_nil]].
    cbn [In]. intros [H|[]]; lra. }
  assert (E := weighted_avg [(1, 1); (2, 3)] (fun l => Ok [Fin l; Fin (l * l)]) G 2 N).
  unfold Rsum in E. cbn [map fst snd seq fold_right G] in E. rewrite E by (try lra; intros p _; reflexivity).
  f_equal. f_equal; [f_equal; lra|]. f_equal. f_equal. lra.
Qed.

(** ** C60 *)
(* a repeated wavelength selects several weights at once; unless their number
   happens to equal the row length the product cannot broadcast *)
Theorem C60_duplicate_raises : forall a rest (w : list xr) g m x,
  length w = S (length rest) -> (2 <= m)%nat ->
  (forall l, In l (a :: rest) -> exists r, g l = Ok r /\ length r = m) ->
  In x rest -> (2 <= count_occ Req_EM_T (a :: rest) x)%nat -> count_occ Req_EM_T (a :: rest) x <> m ->
  weighted_by_wavelength (a :: rest) w g = Err ValueError.
Proof. exact weighted_dup. Qed.
Print Assumptions C60_duplicate_raises.

(* and when it does, the constant 1 no longer averages to 1 *)
Theorem C60_average_of_one_is_one_refuted : forall a w1 w2, w1 + w2 <> 0 -> w1 <> w2 ->
  exists h1 h2, weighted_by_wavelength [a; a] [Fin w1; Fin w2] (fun _ => Ok [Fin 1; Fin 1])
    = Ok [Fin h1; Fin h2] /\ h1 <> 1 /\ h2 = 1.
Proof. exact weighted_dup_silent. Qed.
Print Assumptions C60_average_of_one_is_one_refuted.

Theorem C60_length_mismatch_raises : forall a b rest w g row,
  length w <> S (S (length rest)) -> w <> [] ->
  g a = Ok row -> weighted_by_wavelength (a :: b :: rest) w g = Err IndexError.
Proof. exact weighted_len_mismatch. Qed.
Print Assumptions C60_length_mismatch_raises.

(* except with a single wavelength, where surplus weights are only divided by *)
Theorem C60_single_wavelength_mismatch_is_silent : forall a w0 ws g row, w0 + Rsum ws <> 0 ->
  g a = Ok (map Fin row) ->
  weighted_by_wavelength [a] (Fin w0 :: map Fin ws) g
  = Ok (map (fun x => Fin (w0 / (w0 + Rsum ws) * x)) row).
Proof. exact weighted_one_wavelength. Qed.
Print Assumptions C60_single_wavelength_mismatch_is_silent.

Theorem C60_empty_raises : forall wl w g, wl = [] \/ w = [] ->
  weighted_by_wavelength wl w g = Err IndexError.
Proof. exact weighted_empty. Qed.
Print Assumptions C60_empty_raises.

Example C60_example :
  weighted_by_wavelength [1; 2; 2] [Fin 1; Fin 1; Fin 1] (fun _ => Ok [Fin 1; Fin 1; Fin 1]) = Err ValueError
  /\ weighted_by_wavelength [1] [Fin 1; Fin 3] (fun _ => Ok [Fin 1]) = Ok [Fin (1 / (1 + (3 + 0)) * 1)].
Proof.
  assert (C : count_occ Req_EM_T [1; 2; 2] 2 = 2%nat).
  { cbn [count_occ]. destruct (Req_EM_T 1 2); [lra|]. destruct (Req_EM_T 2 2); [reflexivity | lra]. }
  split.
  - apply (C60_duplicate_raises 1 [2; 2] _ _ 3 2); auto.
    + intros l _. eexists. split; reflexivity.
    + right. left. reflexivity.
    + rewrite C. auto.
    + rewrite C. discriminate.
  - apply (C60_single_wavelength_mismatch_is_silent 1 1 [3] _ [1]); [unfold Rsum; simpl; lra | reflexivity].
Qed.

(** ** C61 *)
Theorem C61_scales_with_wavelength : forall z c n lam k r, 0 < lam -> 0 < k ->
  (forall i, (i < n)%nat -> 0 <= z i) -> (exists j, (j < n)%nat /\ 0 < z j) ->
  coherence_diameter lam (map (fun i => Fin (z i)) (seq 0 n)) (map (fun i => Fin (c i)) (seq 0 n)) = Ok (Fin r) ->
  0 < r /\
  coherence_diameter (k * lam) (map (fun i => Fin (z i)) (seq 0 n)) (map (fun i => Fin (c i)) (seq 0 n))
  = Ok (Fin (Rpower k (6 / 5) * r)).
Proof. exact coherence_wavelength. Qed.
Print Assumptions C61_scales_with_wavelength.

Theorem C61_scales_with_turbulence : forall z c n lam k r, 0 < lam -> 0 < k ->
  (forall i, (i < n)%nat -> 0 <= z i) -> (exists j, (j < n)%nat /\ 0 < z j) ->
  coherence_diameter lam (map (fun i => Fin (z i)) (seq 0 n)) (map (fun i => Fin (c i)) (seq 0 n)) = Ok (Fin r) ->
  coherence_diameter lam (map (fun i => Fin (z i)) (seq 0 n)) (map (fun i => Fin (k * c i)) (seq 0 n))
  = Ok (Fin (Rpower k (- (3 / 5)) * r)).
Proof. exact coherence_cn2_scale. Qed.
Print Assumptions C61_scales_with_turbulence.

Theorem C61_decreasing : forall z c c' n i lam r, 0 < lam ->
  0 <= z 0%nat -> (forall j, (S j < n)%nat -> z j < z (S j)) ->
  (forall j, (j < n)%nat -> c j <= c' j) -> (0 < i < n)%nat -> c i < c' i ->
  coherence_diameter lam (map (fun i => Fin (z i)) (seq 0 n)) (map (fun i => Fin (c i)) (seq 0 n)) = Ok (Fin r) ->
  exists r', coherence_diameter lam (map (fun i => Fin (z i)) (seq 0 n)) (map (fun i => Fin (c' i)) (seq 0 n)) = Ok (Fin r')
    /\ 0 < r' < r.
Proof. exact coherence_decreasing. Qed.
Print Assumptions C61_decreasing.

Theorem C61_finite : forall z c n lam i, 0 < lam -> 0 <= z 0%nat ->
  (forall j, (S j < n)%nat -> z j < z (S j)) ->
  (forall j, (j < n)%nat -> 0 <= c j) -> (0 < i < n)%nat -> 0 < c i ->
  exists r, coherence_diameter lam (map (fun i => Fin (z i)) (seq 0 n)) (map (fun i => Fin (c i)) (seq 0 n)) = Ok (Fin r)
    /\ 0 < r.
Proof. exact coherence_finite. Qed.
Print Assumptions C61_finite.

Theorem C61_no_turbulence : forall z n lam, 0 < lam -> (forall i, (i < n)%nat -> 0 <= z i) ->
  (exists j, (j < n)%nat /\ 0 < z j) ->
  coherence_diameter lam (map (fun i => Fin (z i)) (seq 0 n)) (map (fun _ => Fin 0) (seq 0 n)) = Ok PInf.
Proof. exact coherence_no_turbulence. Qed.
Print Assumptions C61_no_turbulence.

(* polychromatic_turbulence_OTF computes r0 once at 1 um and scales it: the
   result is what coherence_diameter gives at each wavelength *)
Theorem C61_scaling_from_one_micron : forall z c n lam r, 0 < lam ->
  (forall i, (i < n)%nat -> 0 <= z i) -> (exists j, (j < n)%nat /\ 0 < z j) ->
  coherence_diameter (1 / 10 ^ 6) (map (fun i => Fin (z i)) (seq 0 n)) (map (fun i => Fin (c i)) (seq 0 n)) = Ok (Fin r) ->
  coherence_diameter lam (map (fun i => Fin (z i)) (seq 0 n)) (map (fun i => Fin (c i)) (seq 0 n))
  = Ok (r0_function (Fin r) lam).
Proof. exact r0_consistent. Qed.
Print Assumptions C61_scaling_from_one_micron.

(* a two-sample path of length 1 with cn2 = 2: the integral is 1 *)
Example C61_example : exists r,
  coherence_diameter (2 * PI) (map (fun i => Fin (INR i)) (seq 0 2)) (map (fun _ => Fin 2) (seq 0 2)) = Ok (Fin r)
  /\ 0 < r.
Proof.
  apply (C61_finite INR (fun _ => 2) 2 (2 * PI) 1).
  - generalize PI_RGT_0. lra.
  - simpl. lra.
  - intros j _. rewrite S_INR. lra.
  - intros; lra.
  - lia.
  - lra.
Qed.

(** ** C64 *)
Theorem C64_system_is_product : forall diag k s c pts wl w sl ti o,
  length wl = length w -> NoDup wl ->
  common_OTFs diag k s c pts wl w sl ti = Ok o ->
  length (system_OTF o) = length pts
  /\ forall j, (j < length pts)%nat ->
     let at_ l := nth j l NaN in
     at_ (system_OTF o) = xmul (xmul (xmul (xmul (xmul (xmul (at_ (ap_OTF o)) (at_ (turb_OTF o))) (at_ (det_OTF o)))
                            (at_ (jit_OTF o))) (at_ (drft_OTF o))) (at_ (wav_OTF o))) (at_ (filt_OTF o)).
Proof. exact common_product. Qed.
Print Assumptions C64_system_is_product.

Theorem C64_system_mtf : forall diag k s c pts ps sl ti,
  good_spectrum ps -> good_optics s -> good_path c sl -> (length (s_kernel s) <= 1)%nat ->
  exists o, common_OTFs diag k s c pts (map fst ps) (map (fun p => Fin (snd p)) ps) sl ti = Ok o
    /\ length (system_OTF o) = length pts
    /\ forall j u v, nth_error pts j = Some (u, v) ->
       exists a t d ji dr w,
         nth_error (ap_OTF o) j = Some (Fin a) /\ nth_error (turb_OTF o) j = Some (Fin t)
         /\ nth_error (det_OTF o) j = Some (Fin d) /\ nth_error (jit_OTF o) j = Some (Fin ji)
         /\ nth_error (drft_OTF o) j = Some (Fin dr) /\ nth_error (wav_OTF o) j = Some (Fin w)
         /\ nth_error (filt_OTF o) j = Some (Fin 1)
         /\ nth_error (system_OTF o) j = Some (Fin (a * t * d * ji * dr * w))
         /\ (u = 0 -> v = 0 -> a * t * d * ji * dr * w = 1)
         /\ (in_cutoff (s_D s) ps u v -> 0 <= plain c AircraftSpeed * (ti * s_ntdi s) ->
             forall x, In x [a; t; d; ji; dr; w] -> Rabs x <= 1 /\ Rabs (a * t * d * ji * dr * w) <= Rabs x).
Proof. exact common_good. Qed.
Print Assumptions C64_system_mtf.

(* a 30 cm f/10 telescope at 9 km looking at a target 40 km away through
   turbulence, two wavelengths *)
Example C64_example :
  exists s, sensor_init 0.3 3 (1 / 100000) [1 / 1000000] 0.2 None None None default_kw = Ok s
    /\ good_optics s /\ (length (s_kernel s) <= 1)%nat
    /\ good_spectrum [(1 / 2000000, 1); (1 / 1000000, 3)]
    /\ in_cutoff (s_D s) [(1 / 2000000, 1); (1 / 1000000, 3)] 100000 0
    /\ good_path (sc (init 1 9000 39000 true (fun _ => 1))) 40000.
Proof.
  unfold sensor_init. rewrite pydiv_ok by lra. cbn [bind]. eexists; split; [reflexivity|].
  split; [|split; [|split; [|split]]].
  - unfold good_optics. cbn. lra.
  - cbn. lia.
  - split; [|split].
    + cbn [map fst]. apply NoDup_cons; [|apply NoDup_cons; [intros [] | apply NoDup_nil]].
      cbn [In]. intros [H|[]]; lra.
    + intros p [<- | [<- | []]]; cbn [fst snd]; lra.
    + unfold Rsum. cbn [map snd fold_right]. lra.
  - assert (E : sqrt (100000 * 100000 + 0 * 0) = 100000) by (replace (100000 * 100000 + 0 * 0) with (100000 * 100000) by ring; apply sqrt_square; lra).
    intros q [<- | [<- | []]]; cbn [fst s_D]; rewrite E; lra.
  - right. cbn. lra.
Qed.

(** ** C65 *)
Theorem C65_no_turbulence_blur : forall diag k s c pts wl w sl ti o, plain c Cn2At1m <= 0 ->
  common_OTFs diag k s c pts wl w sl ti = Ok o -> turb_OTF o = map (fun _ => Fin 1) pts.
Proof. exact turbulence_off. Qed.
Print Assumptions C65_no_turbulence_blur.

(* two scenarios that differ in everything else, two slant ranges of any kind *)
Theorem C65_geometry_is_irrelevant : forall diag k k' s c c' pts wl w sl sl' ti,
  plain c Cn2At1m <= 0 -> plain c' Cn2At1m <= 0 ->
  common_OTFs diag k s c pts wl w sl ti = common_OTFs diag k' s c' pts wl w sl' ti.
Proof. exact turbulence_off_indep. Qed.
Print Assumptions C65_geometry_is_irrelevant.

(* geometry that would otherwise raise ZeroDivisionError *)
Example C65_example :
  polychromatic_turbulence_OTF Py [] [1] [Fin 1] 0 0 1 1 1 1 1 = Err ZeroDivisionError
  /\ plain (sc (init 1 0 0 true (fun _ => 0))) Cn2At1m <= 0.
Proof.
  split; [|cbn; lra]. unfold polychromatic_turbulence_OTF, altitude_along_slant_path, nadir_angle, sdiv.
  rewrite !Rmult_0_r, pydiv_zero. reflexivity.
Qed.
