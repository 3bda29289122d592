(** * Prop_Rad: theorems about radiance/functional.py (C23-C40). *)
From Coq Require Import Floats.
From Coq Require Import Reals Lra List Lia ZArith Sorted.
From Verif Require Import Base_XR Base_Np Model_Noise Model_Sensor Model_Rad Model_F64 Spec_Rad Proof_F64 Proof_Rad Proof_Snr Proof_Pe Proof_RadP Proof_RadX.
Import ListNotations.
Open Scope R_scope.

(** ** C23 *)
Theorem C23_blackbody_is_planck_and_positive :
  forall lam T, 0 < lam -> 0 < T ->
    exists b, blackbody_radiance1 lam T = Fin b /\ 0 < b /\ b = planck lam T.
Proof. exact bb_positive. Qed.
Print Assumptions C23_blackbody_is_planck_and_positive.

Theorem C23_blackbody_increasing :
  forall lam T1 T2, 0 < lam -> 0 <= T1 -> T1 < T2 ->
    exists b1 b2, blackbody_radiance1 lam T1 = Fin b1 /\ blackbody_radiance1 lam T2 = Fin b2 /\ b1 < b2.
Proof. exact bb_increasing. Qed.
Print Assumptions C23_blackbody_increasing.

Theorem C23_blackbody_array :
  forall wl T, (forall x, In x wl -> x <> 0) ->
    blackbody_radiance wl T = map (fun l => Fin (planck l T)) wl.
Proof. exact bb_list. Qed.
Print Assumptions C23_blackbody_array.

Example C23_ex : 0 < 10 / 10 ^ 6 /\ 0 <= 280 /\ 280 < 282.
Proof. lra. Qed.

(** ** C24 *)
Theorem C24_wien_scaling :
  forall lam T k, lam <> 0 -> 0 < k ->
    exists b, blackbody_radiance1 lam T = Fin b /\ blackbody_radiance1 (lam / k) (k * T) = Fin (k ^ 5 * b).
Proof. exact bb_wien. Qed.
Print Assumptions C24_wien_scaling.

Theorem C24_rayleigh_jeans_bound :
  forall lam T, 0 < lam -> 0 < T ->
    exists b, blackbody_radiance1 lam T = Fin b /\ b <= 2 * c_light * k_boltz * T / lam ^ 4.
Proof. exact bb_rj. Qed.
Print Assumptions C24_rayleigh_jeans_bound.

Theorem C24_absolute_zero :
  forall lam, lam <> 0 -> blackbody_radiance1 lam 0 = Fin 0.
Proof. exact bb_cold. Qed.
Print Assumptions C24_absolute_zero.

Example C24_ex : 4 / 10 ^ 7 <> 0 /\ 0 < 3 /\ 0 < 6000.
Proof. lra. Qed.

(** ** C25 *)
Theorem C25_irradiance_is_cone_factor :
  forall D f L, D <> 0 ->
    at_focal_plane_irradiance D f (map Fin L) = Ok (map Fin (map (Rmult (cone D f)) L)).
Proof. exact afpi_cone. Qed.
Print Assumptions C25_irradiance_is_cone_factor.

Theorem C25_irradiance_bounds :
  forall D f L, D <> 0 -> all_nonneg L ->
    exists E, at_focal_plane_irradiance D f (map Fin L) = Ok (map Fin E) /\
      length E = length L /\ forall i, (i < length L)%nat -> 0 <= nth i E 0 <= PI * nth i L 0.
Proof. exact afpi_bounds. Qed.
Print Assumptions C25_irradiance_bounds.

Theorem C25_slower_lens_is_darker :
  forall D1 f1 D2 f2 l, D1 <> 0 -> D2 <> 0 -> Rabs (f1 / D1) < Rabs (f2 / D2) -> 0 < l ->
    exists e1 e2, at_focal_plane_irradiance D1 f1 [Fin l] = Ok [Fin e1] /\
      at_focal_plane_irradiance D2 f2 [Fin l] = Ok [Fin e2] /\ 0 < e2 < e1.
Proof. exact afpi_slower. Qed.
Print Assumptions C25_slower_lens_is_darker.

Theorem C25_only_the_f_number_matters :
  forall D1 f1 D2 f2 L, D1 <> 0 -> D2 <> 0 -> f1 / D1 = f2 / D2 ->
    at_focal_plane_irradiance D1 f1 L = at_focal_plane_irradiance D2 f2 L.
Proof. exact afpi_same. Qed.
Print Assumptions C25_only_the_f_number_matters.

Theorem C25_raises_iff_no_aperture :
  forall D f L, at_focal_plane_irradiance D f L = Err ZeroDivisionError <-> D = 0.
Proof. exact afpi_raises. Qed.
Print Assumptions C25_raises_iff_no_aperture.

Example C25_ex : 0.1 <> 0 /\ all_nonneg [0; 2.5] /\ Rabs (0.2 / 0.1) < Rabs (0.8 / 0.2).
Proof.
  split; [lra|]. split; [intros x [<-|[<-|[]]]; lra|]. rewrite !Rabs_pos_eq; lra.
Qed.

(** ** C26 *)
Theorem C26_isothermal_interior :
  forall wl T D f, D <> 0 -> (forall x, In x wl -> x <> 0) ->
    exists a b, cold_shield_self_emission wl T D f = Ok (map Fin a) /\
      cold_stop_self_emission wl T 1 D f = Ok (map Fin b) /\
      length a = length wl /\ length b = length wl /\
      forall i, (i < length wl)%nat -> nth i a 0 + nth i b 0 = PI * planck (nth i wl 0) T.
Proof. exact isothermal. Qed.
Print Assumptions C26_isothermal_interior.

Theorem C26_cold_stop_value :
  forall wl T e D f, D <> 0 -> (forall x, In x wl -> x <> 0) ->
    cold_stop_self_emission wl T e D f = Ok (map (fun l => Fin (cone D f * (e * planck l T))) wl).
Proof. exact stop_fin. Qed.
Print Assumptions C26_cold_stop_value.

Theorem C26_optics_value :
  forall wl T e t D f, D <> 0 -> (forall x, In x wl -> x <> 0) ->
    optics_self_emission wl T e t D f = Ok (map (fun l => Fin (cone D f * (t * e * planck l T))) wl).
Proof. exact optics_fin. Qed.
Print Assumptions C26_optics_value.

Example C26_ex : 0.1 <> 0 /\ (forall x, In x [8 / 10 ^ 6; 12 / 10 ^ 6] -> x <> 0).
Proof. split; [lra|]. intros x [<-|[<-|[]]]; lra. Qed.

(** ** C27 *)
Theorem C27_photon_count :
  forall E w_x w_y wl qe, length E = length wl -> length qe = length wl -> (forall x, In x wl -> x <> 0) ->
    exists dN, photon_detection_rate (map Fin E) w_x w_y wl qe = Ok (map Fin dN) /\ length dN = length wl /\
      forall i, (i < length wl)%nat ->
        nth i dN 0 * photon_energy (nth i wl 0) = nth i qe 0 * (w_x * w_y) * nth i E 0.
Proof. exact pdr_value. Qed.
Print Assumptions C27_photon_count.

Theorem C27_wrong_qe_length_raises :
  forall E w_x w_y wl qe, length qe <> length wl -> length qe <> 1%nat -> length wl <> 1%nat ->
    photon_detection_rate E w_x w_y wl qe = Err ValueError.
Proof. exact pdr_shape_error. Qed.
Print Assumptions C27_wrong_qe_length_raises.

Theorem C27_wrong_irradiance_length_raises :
  forall E w_x w_y wl qe, length qe = length wl -> length E <> length wl -> length E <> 1%nat -> length wl <> 1%nat ->
    photon_detection_rate E w_x w_y wl qe = Err ValueError.
Proof. exact pdr_shape_error2. Qed.
Print Assumptions C27_wrong_irradiance_length_raises.

Example C27_ex : length [1; 2] = length [8 / 10 ^ 6; 12 / 10 ^ 6] /\ length [0.5; 0.6; 0.7] <> length [8 / 10 ^ 6; 12 / 10 ^ 6].
Proof. simpl. split; [reflexivity|lia]. Qed.

(** ** C28 *)
Theorem C28_resampling_reads_the_table :
  forall wl v new, wl <> [] -> length wl = length v -> StronglySorted Rlt wl ->
    exists out, resample_by_wavelength wl v new = Ok out /\ length out = length new /\
      forall i, (i < length new)%nat -> reads wl v (nth i new 0) (nth i out 0).
Proof. exact resample_reads. Qed.
Print Assumptions C28_resampling_reads_the_table.

(* the specification [reads] determines the value *)
Theorem C28_reading_is_unique :
  forall xs ys x y y', xs <> [] -> length xs = length ys -> StronglySorted Rlt xs ->
    reads xs ys x y -> reads xs ys x y' -> y = y'.
Proof. exact reads_unique. Qed.
Print Assumptions C28_reading_is_unique.

Theorem C28_resampling_bounds :
  forall wl v new lo hi, wl <> [] -> length wl = length v -> lo <= 0 <= hi -> (forall y, In y v -> lo <= y <= hi) ->
    exists out, resample_by_wavelength wl v new = Ok out /\ length out = length new /\ forall y, In y out -> lo <= y <= hi.
Proof. exact resample_bounds. Qed.
Print Assumptions C28_resampling_bounds.

Theorem C28_raises_iff :
  forall wl v new, resample_by_wavelength wl v new = Err ValueError <-> wl = [] \/ length wl <> length v.
Proof. exact resample_raises. Qed.
Print Assumptions C28_raises_iff.

Example C28_ex : StronglySorted Rlt [0.4; 0.5; 0.7] /\ reads [0.4; 0.5; 0.7] [0; 1; 0.5] 0.6 0.75.
Proof.
  split; [repeat constructor; lra|].
  replace 0.75 with (1 + (0.5 - 1) * ((0.6 - 0.5) / (0.7 - 0.5))) by lra.
  apply (reads_between [0.4; 0.5; 0.7] [0; 1; 0.5] 0.6 1); simpl; [lia|lra].
Qed.

(** ** C29 *)
Theorem C29_total_radiance_value :
  forall atm r T, (forall a, In a atm -> a_wl a <> 0) ->
    total_radiance atm r T = map (fun a => Fin (scene_radiance r T a)) atm.
Proof. exact total_radiance_value. Qed.
Print Assumptions C29_total_radiance_value.

Theorem C29_total_radiance_affine :
  forall atm r T, (forall a, In a atm -> a_wl a <> 0) ->
    exists l0 l1 lr, total_radiance atm 0 T = map Fin l0 /\ total_radiance atm 1 T = map Fin l1 /\
      total_radiance atm r T = map Fin lr /\ length lr = length atm /\
      forall i, (i < length atm)%nat -> nth i lr 0 = (1 - r) * nth i l0 0 + r * nth i l1 0.
Proof. exact total_radiance_affine. Qed.
Print Assumptions C29_total_radiance_affine.

Theorem C29_hotter_is_brighter :
  forall atm r T1 T2, (forall a, In a atm -> 0 < a_wl a /\ 0 < a_trans a) -> r < 1 -> 0 <= T1 -> T1 < T2 ->
    exists l1 l2, total_radiance atm r T1 = map Fin l1 /\ total_radiance atm r T2 = map Fin l2 /\
      forall i, (i < length atm)%nat -> nth i l1 0 < nth i l2 0.
Proof. exact total_radiance_hotter. Qed.
Print Assumptions C29_hotter_is_brighter.

Theorem C29_mirror_ignores_temperature :
  forall atm T1 T2, (forall a, In a atm -> a_wl a <> 0) -> total_radiance atm 1 T1 = total_radiance atm 1 T2.
Proof. exact total_radiance_mirror. Qed.
Print Assumptions C29_mirror_ignores_temperature.

Theorem C29_surface_column_unused :
  forall atm atm' r T,
    Forall2 (fun a b => a_wl a = a_wl b /\ a_trans a = a_trans b /\ a_path a = a_path b /\
                        a_scat a = a_scat b /\ a_grnd a = a_grnd b) atm atm' ->
    total_radiance atm r T = total_radiance atm' r T.
Proof. exact total_radiance_no_surface. Qed.
Print Assumptions C29_surface_column_unused.

Example C29_ex : forall a, In a demo_atm -> 0 < a_wl a /\ 0 < a_trans a.
Proof. pose proof um_pos. intros a [<-|[<-|[]]]; simpl; lra. Qed.

(** ** C30 *)
Theorem C30_emissive_target_is_brighter :
  forall atm k, k <> 0%Z -> (forall a, In a atm -> 0 < a_wl a /\ 0 <= a_trans a) ->
    exists t b, giqe_radiance atm k = (map Fin t, map Fin b) /\ length t = length atm /\ length b = length atm /\
      forall i, (i < length atm)%nat ->
        nth i b 0 <= nth i t 0 /\ (0 < a_trans (nth i atm arow0) -> nth i b 0 < nth i t 0) /\
        nth i t 0 = a_path (nth i atm arow0) + a_scat (nth i atm arow0)
                    + a_trans (nth i atm arow0) * planck (a_wl (nth i atm arow0)) 282.
Proof. exact giqe_emissive. Qed.
Print Assumptions C30_emissive_target_is_brighter.

Theorem C30_emissive_scene :
  forall atm k, k <> 0%Z -> (forall a, In a atm -> a_wl a <> 0) ->
    giqe_radiance atm k = (map (fun a => Fin (scene_radiance 0 282 a)) atm,
                           map (fun a => Fin (scene_radiance 0 280 a)) atm).
Proof. exact giqe_emissive_value. Qed.
Print Assumptions C30_emissive_scene.

Theorem C30_reflective_scene :
  forall atm, (forall a, In a atm -> a_wl a <> 0) ->
    giqe_radiance atm 0 = (map (fun a => Fin (scene_radiance 0.15 282 a)) atm,
                           map (fun a => Fin (scene_radiance 0.07 280 a)) atm).
Proof. exact giqe_reflective. Qed.
Print Assumptions C30_reflective_scene.

Example C30_ex : 1%Z <> 0%Z /\ -1 <> 0 /\ forall a, In a demo_atm -> 0 < a_wl a /\ 0 <= a_trans a.
Proof. split; [discriminate|]. split; [lra|]. pose proof um_pos. intros a [<-|[<-|[]]]; simpl; lra. Qed.

(** ** C31 *)
Theorem C31_signal_rate_value :
  forall wl D f w_x w_y dark, D <> 0 -> positive_wavelengths wl ->
  forall L tr qe oth, length L = length wl -> length tr = length wl -> length qe = length wl -> length oth = length wl ->
    exists dN irr, signal_rate wl (map Fin L) tr D f w_x w_y qe (map Fin oth) dark
      = Ok (Fin (trapezoid dN wl + dark), map Fin irr, map Fin dN) /\
      length dN = length wl /\ length irr = length wl /\
      forall i, (i < length wl)%nat ->
        nth i irr 0 = nth i tr 0 * cone D f * nth i L 0 + nth i oth 0 /\
        nth i dN 0 * photon_energy (nth i wl 0) = nth i qe 0 * (w_x * w_y) * nth i irr 0.
Proof. exact rate_value. Qed.
Print Assumptions C31_signal_rate_value.

Theorem C31_signal_rate_affine :
  forall wl D f w_x w_y dark, D <> 0 ->
  forall k L L' Lk tr qe oth,
    length L = length wl -> length L' = length wl -> length Lk = length wl ->
    length tr = length wl -> length qe = length wl -> length oth = length wl ->
    (forall i, (i < length wl)%nat -> nth i Lk 0 = (1 - k) * nth i L 0 + k * nth i L' 0) ->
    exists r r' i i' ik d d' dk,
      signal_rate wl (map Fin L) tr D f w_x w_y qe (map Fin oth) dark = Ok (Fin r, i, d) /\
      signal_rate wl (map Fin L') tr D f w_x w_y qe (map Fin oth) dark = Ok (Fin r', i', d') /\
      signal_rate wl (map Fin Lk) tr D f w_x w_y qe (map Fin oth) dark = Ok (Fin ((1 - k) * r + k * r'), ik, dk).
Proof. exact rate_affine. Qed.
Print Assumptions C31_signal_rate_affine.

Theorem C31_signal_rate_monotone :
  forall wl D f w_x w_y dark, D <> 0 -> positive_wavelengths wl ->
  forall L L' tr tr' qe qe' oth oth', ascending wl -> 0 <= w_x -> 0 <= w_y ->
    length L = length wl -> length tr = length wl -> length qe = length wl -> length oth = length wl ->
    length L' = length wl -> length tr' = length wl -> length qe' = length wl -> length oth' = length wl ->
    (forall i, (i < length wl)%nat ->
       0 <= nth i L 0 <= nth i L' 0 /\ 0 <= nth i tr 0 <= nth i tr' 0 /\
       0 <= nth i qe 0 <= nth i qe' 0 /\ 0 <= nth i oth 0 <= nth i oth' 0) ->
    exists r r' i i' d d',
      signal_rate wl (map Fin L) tr D f w_x w_y qe (map Fin oth) dark = Ok (Fin r, i, d) /\
      signal_rate wl (map Fin L') tr' D f w_x w_y qe' (map Fin oth') dark = Ok (Fin r', i', d') /\
      dark <= r <= r'.
Proof. exact rate_monotone. Qed.
Print Assumptions C31_signal_rate_monotone.

Example C31_ex : positive_wavelengths [8 / 10 ^ 6; 10 / 10 ^ 6; 12 / 10 ^ 6] /\ ascending [8 / 10 ^ 6; 10 / 10 ^ 6; 12 / 10 ^ 6].
Proof. split; [intros x [<-|[<-|[<-|[]]]]; lra|simpl; lra]. Qed.

(** ** C32 *)
Theorem C32_well_fill :
  forall n m, 0 <= m ->
    exists s, check_well_fill_py n m = Ok s /\ 0 <= s <= 1 /\ s * n <= m /\
      (n <= m -> s = 1) /\ (m < n -> s * n = m) /\ (0 < m -> 0 < s).
Proof. exact well_fill_py. Qed.
Print Assumptions C32_well_fill.

(* in double precision the scaled count can exceed the limit *)
Theorem C32_well_fill_binary64_refuted :
  ~ (forall total max_fill : float,
       PrimFloat.ltb 0 max_fill = true -> PrimFloat.ltb 0 total = true ->
       PrimFloat.ltb max_fill (check_well_fill_f64 total max_fill * total)%float = false).
Proof. exact well_fill_f64_refuted. Qed.
Print Assumptions C32_well_fill_binary64_refuted.

Example C32_ex : 0 <= 7 /\ 7 < 25.
Proof. lra. Qed.

(** ** C33 *)
Theorem C33_no_overfill :
  forall s wl rt rb,
    has_tables s -> s_D s <> 0 -> 0 < s_max_n s -> 0 <= s_max_fill s -> 0 <= s_int_time s ->
    (forall y, In y wl -> y <> 0) -> length rt = length wl -> length rb = length wl ->
    exists M wf t, photon_detector_SNR s wl (map Fin rt) (map Fin rb) = Ok M /\
      m_well_fraction M = Fin wf /\ wf <= s_max_fill s /\
      m_int_time M = Fin t /\ 0 <= t <= s_int_time s.
Proof. exact snr_no_overfill. Qed.
Print Assumptions C33_no_overfill.

(* both counts are the physical counts, shortened by one common factor that is 1
   unless the well would overflow *)
Theorem C33_counts :
  forall s wl rt rb tr q, has_tables s -> sorted_tables s -> response_curves s tr q ->
  s_D s <> 0 -> 0 < s_max_n s -> 0 <= s_max_fill s -> positive_wavelengths wl ->
  length rt = length wl -> length rb = length wl ->
  let rate L := trapezoid (map (fun p => electrons s (tr (fst p)) (q (fst p)) (fst p) (snd p)) (combine wl L)) wl + s_dark s in
  let g := s_int_time s * s_ntdi s in
  let cap := s_max_fill s * s_max_n s in
  exists M k, photon_detector_SNR s wl (map Fin rt) (map Fin rb) = Ok M /\
    m_tgt_rate M = Fin (rate rt) /\ m_bkg_rate M = Fin (rate rb) /\
    m_tgt_n M = Fin (k * (rate rt * g)) /\ m_bkg_n M = Fin (k * (rate rb * g)) /\
    m_int_time M = Fin (k * s_int_time s) /\ m_contrast M = Fin (k * ((rate rt - rate rb) * g)) /\
    m_well_fraction M = Fin (k * Rmax (rate rt * g) (rate rb * g) / s_max_n s) /\
    0 <= k <= 1 /\ (Rmax (rate rt * g) (rate rb * g) <= cap -> k = 1) /\
    (cap <= Rmax (rate rt * g) (rate rb * g) -> k * Rmax (rate rt * g) (rate rb * g) = cap).
Proof. exact snr_counts. Qed.
Print Assumptions C33_counts.

Example C33_ex : physical (demo_sensor 100000) /\ sorted_tables (demo_sensor 100000) /\
  response_curves (demo_sensor 100000) (tr_of (demo_sensor 100000)) (q_of (demo_sensor 100000)).
Proof.
  assert (P : physical (demo_sensor 100000)) by (apply demo_physical; lra).
  split; [exact P|]. split; [apply demo_sorted|]. apply curves_exist; [apply P|apply demo_sorted].
Qed.

(** ** C34 *)
Theorem C34_swap_flips_sign :
  forall s wl a b M, photon_detector_SNR s wl a b = Ok M ->
  exists M', photon_detector_SNR s wl b a = Ok M' /\
    m_snr M' = xopp (m_snr M) /\ m_total_noise M' = m_total_noise M /\
    m_well_fraction M' = m_well_fraction M /\ m_int_time M' = m_int_time M /\
    m_tgt_n M' = m_bkg_n M /\ m_bkg_n M' = m_tgt_n M.
Proof. exact snr_swap. Qed.
Print Assumptions C34_swap_flips_sign.

Theorem C34_equal_scenes_give_zero :
  forall s wl r, physical s -> positive_wavelengths wl -> ascending wl -> length r = length wl -> all_nonneg r ->
    exists M, photon_detector_SNR s wl (map Fin r) (map Fin r) = Ok M /\ m_snr M = Fin 0.
Proof. exact snr_same. Qed.
Print Assumptions C34_equal_scenes_give_zero.

Example C34_ex : exists M, photon_detector_SNR (demo_sensor 100000) [9 * um; 10 * um] (map Fin [5; 6]) (map Fin [4; 4]) = Ok M.
Proof.
  pose proof um_pos. assert (P : physical (demo_sensor 100000)) by (apply demo_physical; lra).
  destruct (C33_no_overfill (demo_sensor 100000) [9 * um; 10 * um] [5; 6] [4; 4]) as [M [_ [_ [E _]]]].
  - apply (ph_tables _ P). - simpl; lra. - simpl; lra. - simpl; lra. - simpl; lra.
  - intros y [<-|[<-|[]]]; lra. - reflexivity. - reflexivity.
  - now exists M.
Qed.

(** ** C35 *)
Theorem C35_noise_budget :
  forall s wl rt rb, physical s -> positive_wavelengths wl -> ascending wl ->
    length rt = length wl -> length rb = length wl -> all_nonneg rt -> all_nonneg rb ->
    exists M sig quant dark self tot,
      photon_detector_SNR s wl (map Fin rt) (map Fin rb) = Ok M /\
      m_signal_noise M = Fin sig /\ m_quant_noise M = Fin quant /\ m_dark_noise M = Fin dark /\
      m_self_noise M = Fin self /\ m_total_noise M = Fin tot /\
      tot ^ 2 = sig ^ 2 + quant ^ 2 + s_read s ^ 2 + Rsum (map (fun x => x * x) (s_other_noise s)) /\
      0 <= sig <= tot /\ 0 < quant <= tot /\ Rabs (s_read s) <= tot /\
      dark ^ 2 + self ^ 2 <= sig ^ 2.
Proof. exact noise_budget. Qed.
Print Assumptions C35_noise_budget.

(* each noise term, the total and the ratio *)
Theorem C35_noise_terms :
  forall s wl rt rb tr q, physical s -> sorted_tables s -> response_curves s tr q ->
  positive_wavelengths wl -> ascending wl ->
  length rt = length wl -> length rb = length wl -> all_nonneg rt -> all_nonneg rb ->
  exists M tn bn t sig quant dark self tot snr,
    photon_detector_SNR s wl (map Fin rt) (map Fin rb) = Ok M /\
    m_tgt_n M = Fin tn /\ m_bkg_n M = Fin bn /\ m_int_time M = Fin t /\
    m_signal_noise M = Fin sig /\ m_quant_noise M = Fin quant /\ m_dark_noise M = Fin dark /\
    m_self_noise M = Fin self /\ m_total_noise M = Fin tot /\ m_snr M = Fin snr /\
    0 <= sig /\ 0 <= dark /\ 0 <= self /\ 0 < tot /\
    sig ^ 2 = Rmax tn bn /\
    quant * (sqrt 12 * (Rpower 2 (s_bits s) - 1)) = s_max_n s /\
    dark ^ 2 = s_dark s * (t * s_ntdi s) /\
    self ^ 2 = trapezoid (map (fun l => electrons s (tr l) (q l) l 0) wl) wl * (t * s_ntdi s) /\
    tot ^ 2 = sig ^ 2 + quant ^ 2 + s_read s ^ 2 + Rsum (map (fun x => x ^ 2) (s_other_noise s)) /\
    snr * tot = tn - bn.
Proof. exact noise_terms. Qed.
Print Assumptions C35_noise_terms.

Example C35_ex : physical (demo_sensor 100000) /\ positive_wavelengths [9 * um; 10 * um] /\ ascending [9 * um; 10 * um] /\ all_nonneg [5; 6].
Proof.
  pose proof um_pos. split; [apply demo_physical; lra|]. split; [intros y [<-|[<-|[]]]; lra|]. split; [simpl; lra|].
  intros y [<-|[<-|[]]]; lra.
Qed.

(** ** C36 *)
Theorem C36_more_exposure_never_hurts :
  forall s wl rt rb t1 n1 t2 n2,
    physical s -> positive_wavelengths wl -> ascending wl ->
    length rt = length wl -> length rb = length wl -> all_nonneg rt -> all_nonneg rb ->
    0 <= t1 -> 0 <= n1 -> 0 <= t2 -> 0 <= n2 -> t1 * n1 <= t2 * n2 ->
    exists M1 M2 v1 v2,
      photon_detector_SNR (with_ntdi (with_int_time s t1) n1) wl (map Fin rt) (map Fin rb) = Ok M1 /\
      photon_detector_SNR (with_ntdi (with_int_time s t2) n2) wl (map Fin rt) (map Fin rb) = Ok M2 /\
      m_snr M1 = Fin v1 /\ m_snr M2 = Fin v2 /\ Rabs v1 <= Rabs v2 /\
      (0 < s_max_fill s -> forall wf, m_well_fraction M1 = Fin wf -> s_max_fill s <= wf ->
         v1 = v2 /\ m_well_fraction M2 = Fin wf).
Proof. exact snr_exposure. Qed.
Print Assumptions C36_more_exposure_never_hurts.

Example C36_ex : 0 <= 0.001 /\ 0.001 * 1 <= 0.002 * 4.
Proof. lra. Qed.

(** ** C37 *)
Theorem C37_curve_within_well :
  forall atm s t T, has_tables s -> s_D s <> 0 -> 0 < s_max_n s -> good_rows s atm ->
    exists ref pe w, reflectance_to_photoelectrons atm s t T = Ok (ref, map Fin pe, w) /\
      length ref = 100%nat /\ length pe = 100%nat /\
      (forall i, (i < 100)%nat -> nth i ref 0 = INR i / 99) /\
      (forall p, In p pe -> p <= s_max_n s) /\
      (forall i, (i < 100)%nat -> nth i pe 0 = (1 - INR i / 99) * nth 0 pe 0 + INR i / 99 * nth 99 pe 0).
Proof. exact r2p_shape. Qed.
Print Assumptions C37_curve_within_well.

(* overexposure is handled by shortening the exposure so the peak just fills the well *)
Theorem C37_overexposure_shortens_exposure :
  forall atm s t T, has_tables s -> s_D s <> 0 -> 0 < s_max_n s -> good_rows s atm ->
    exists k, 0 < k <= 1 /\
      (forall n, s_max_n s <= n ->
         reflectance_to_photoelectrons atm s t T = reflectance_to_photoelectrons atm (with_max_n s n) (k * t) T) /\
      (k < 1 -> exists ref pe w, reflectance_to_photoelectrons atm s t T = Ok (ref, map Fin pe, w) /\ In (s_max_n s) pe).
Proof. exact r2p_limit. Qed.
Print Assumptions C37_overexposure_shortens_exposure.

Theorem C37_no_limit_when_it_fits :
  forall atm s t T n ref pe w, has_tables s -> s_D s <> 0 -> 0 < s_max_n s -> s_max_n s < n -> good_rows s atm ->
    reflectance_to_photoelectrons atm (with_max_n s n) t T = Ok (ref, map Fin pe, w) ->
    (forall p, In p pe -> p <= s_max_n s) ->
    reflectance_to_photoelectrons atm s t T = Ok (ref, map Fin pe, w).
Proof. exact r2p_no_limit. Qed.
Print Assumptions C37_no_limit_when_it_fits.

Theorem C37_counts_nonnegative :
  forall atm s t T, physical s -> 0 <= t -> good_rows s atm -> ascending (map a_wl atm) -> sound_rows atm ->
    exists ref pe w, reflectance_to_photoelectrons atm s t T = Ok (ref, map Fin pe, w) /\ all_nonneg pe.
Proof. exact r2p_nonneg. Qed.
Print Assumptions C37_counts_nonnegative.

Theorem C37_no_band_raises :
  forall atm s t T, has_tables s -> s_D s <> 0 -> 0 < s_max_n s -> (forall a, In a atm -> ~ in_band s a) ->
    reflectance_to_photoelectrons atm s t T = Err ValueError.
Proof. exact r2p_empty. Qed.
Print Assumptions C37_no_band_raises.

Theorem C37_out_of_band_rows_ignored :
  forall l1 a l2 s t T, has_tables s -> ~ in_band s a ->
    reflectance_to_photoelectrons (l1 ++ a :: l2) s t T = reflectance_to_photoelectrons (l1 ++ l2) s t T.
Proof. exact r2p_out_of_band. Qed.
Print Assumptions C37_out_of_band_rows_ignored.

Example C37_ex : good_rows (demo_sensor 1000) demo_atm /\ sound_rows demo_atm /\ ascending (map a_wl demo_atm) /\
  ~ in_band (demo_sensor 1000) (demo_row (4 * um)).
Proof.
  pose proof um_pos. split; [apply demo_good|]. split; [intros a [<-|[<-|[]]]; simpl; lra|]. split; [simpl; lra|].
  intros [lo [hi [A [_ [B _]]]]]. simpl in A. injection A as <-. simpl in B. lra.
Qed.

(** ** C38 *)
Theorem C38_counts_are_physical :
  forall atm s t T tr q, has_tables s -> sorted_tables s -> response_curves s tr q -> s_D s <> 0 -> 0 < s_max_n s ->
    good_rows s atm -> (forall a, In a atm -> in_band s a /\ 0 < a_wl a) ->
    exists ref pe w k, reflectance_to_photoelectrons atm s t T = Ok (ref, map Fin pe, w) /\ 0 < k <= 1 /\
      (forall i, (i < 100)%nat -> nth i pe 0 = collected s tr q atm (k * t) 300 (INR i / 99)) /\
      ((forall i, (i < 100)%nat -> collected s tr q atm t 300 (INR i / 99) <= s_max_n s) -> k = 1).
Proof. exact r2p_value. Qed.
Print Assumptions C38_counts_are_physical.

Theorem C38_trend :
  forall atm s t T, physical s -> 0 <= t -> good_rows s atm -> ascending (map a_wl atm) -> (forall a, In a atm -> 0 < a_wl a) ->
    exists ref pe w, reflectance_to_photoelectrons atm s t T = Ok (ref, map Fin pe, w) /\
      ((forall a, In a atm -> in_band s a -> planck (a_wl a) 300 * a_trans a <= a_grnd a / 0.15) -> nth 0 pe 0 <= nth 99 pe 0) /\
      ((forall a, In a atm -> in_band s a -> a_grnd a / 0.15 <= planck (a_wl a) 300 * a_trans a) -> nth 99 pe 0 <= nth 0 pe 0).
Proof. exact r2p_trend. Qed.
Print Assumptions C38_trend.

Theorem C38_interpolation_exact :
  forall atm s t T, has_tables s -> s_D s <> 0 -> 0 < s_max_n s -> good_rows s atm ->
    exists ref pe w, reflectance_to_photoelectrons atm s t T = Ok (ref, map Fin pe, w) /\
      forall r lft rgt, 0 <= r <= 1 ->
        np_interp (Fin r) ref pe lft rgt = Ok (Fin ((1 - r) * nth 0 pe 0 + r * nth 99 pe 0)).
Proof. exact r2p_interp_exact. Qed.
Print Assumptions C38_interpolation_exact.

Example C38_ex : forall a, In a demo_atm -> in_band (demo_sensor 1000) a /\ 0 < a_wl a.
Proof. apply demo_rows. Qed.

(** ** C39 *)
Theorem C39_weights :
  forall atm s t T, physical s -> 0 <= t -> good_rows s atm -> ascending (map a_wl atm) -> sound_rows atm ->
    exists ref pe wl w, reflectance_to_photoelectrons atm s t T = Ok (ref, map Fin pe, (wl, w)) /\
      length wl = length w /\ (forall x, In x wl <-> exists a, In a atm /\ in_band s a /\ a_wl a = x) /\
      ((exists v, w = map Fin v /\ (forall x, In x v -> 0 <= x <= 1) /\ In 1 v) \/
       ((forall x, In x w -> x = NaN) /\ nth 99 pe 0 <= s_dark s * t * s_ntdi s)).
Proof. exact r2p_weights. Qed.
Print Assumptions C39_weights.

(* the weights are the electrons per wavelength for a perfect reflector, divided
   by the largest of them *)
Theorem C39_weight_values :
  forall atm s t T tr q, has_tables s -> sorted_tables s -> response_curves s tr q -> s_D s <> 0 -> 0 < s_max_n s ->
  good_rows s atm -> (forall a, In a atm -> in_band s a /\ 0 < a_wl a) ->
  let es := map (fun a => electrons s (tr (a_wl a)) (q (a_wl a)) (a_wl a) (scene_radiance 1 300 a)) atm in
  (exists e, In e es /\ 0 < e) ->
  exists ref pe peak, In peak es /\ (forall e, In e es -> e <= peak) /\
    reflectance_to_photoelectrons atm s t T = Ok (ref, pe, (map a_wl atm, map (fun e => Fin (e / peak)) es)).
Proof. exact weights_value. Qed.
Print Assumptions C39_weight_values.

Example C39_ex_lit : let s := demo_sensor 1000 in
  exists e, In e (map (fun a => electrons s (tr_of s (a_wl a)) (q_of s (a_wl a)) (a_wl a) (scene_radiance 1 300 a)) demo_atm) /\ 0 < e.
Proof. intros s. eexists. split; [left; reflexivity|]. apply (demo_electrons 1000). Qed.

Example C39_ex : physical (demo_sensor 1000) /\ good_rows (demo_sensor 1000) demo_atm /\ 0 <= 0.01.
Proof. split; [apply demo_physical; lra|]. split; [apply demo_good|lra]. Qed.

(** ** C40 *)
Theorem C40_target_temp_ignored :
  forall atm s t T T', reflectance_to_photoelectrons atm s t T = reflectance_to_photoelectrons atm s t T'.
Proof. exact r2p_temp_ignored. Qed.
Print Assumptions C40_target_temp_ignored.

(* "target_temp: temperature of the target (Kelvin)" *)
Theorem C40_count_at_target_temp_refuted :
  ~ (forall atm s t T tr q ref pe w,
       physical s -> sorted_tables s -> response_curves s tr q -> good_rows s atm -> sound_rows atm ->
       (forall a, In a atm -> in_band s a) -> 0 < t -> 0 < T ->
       (forall i, (i < 100)%nat -> collected s tr q atm t T (INR i / 99) <= s_max_n s) ->
       (forall i, (i < 100)%nat -> collected s tr q atm t 300 (INR i / 99) <= s_max_n s) ->
       reflectance_to_photoelectrons atm s t T = Ok (ref, map Fin pe, w) ->
       forall i, (i < 100)%nat -> nth i pe 0 = collected s tr q atm t T (INR i / 99)).
Proof. exact r2p_temperature_refuted. Qed.
Print Assumptions C40_count_at_target_temp_refuted.

Example C40_ex : good_rows (demo_sensor 1000) demo_atm.
Proof. apply demo_good. Qed.

(** ** C102 *)
Theorem C102_integrated_irradiance_value :
  forall L L_s t_opt e_opt wl d T D f, D <> 0 -> length L = length wl -> (forall x, In x wl -> x <> 0) ->
    focal_plane_integrated_irradiance (map Fin L) L_s t_opt e_opt wl d T D f
    = Ok (map (fun p => Fin (cone D f * (t_opt * fst p + e_opt * planck (snd p) T * d + L_s))) (combine L wl)).
Proof. exact fpii_value. Qed.
Print Assumptions C102_integrated_irradiance_value.

(* with the scene dark, only the emission of the optics over the bandwidth is left *)
Theorem C102_dark_scene_is_optics_emission :
  forall wl e_opt d T D f, D <> 0 -> (forall x, In x wl -> x <> 0) ->
    exists a b, focal_plane_integrated_irradiance (map Fin (map (fun _ => 0) wl)) 0 1 e_opt wl d T D f = Ok (map Fin a) /\
      optics_self_emission wl T e_opt 1 D f = Ok (map Fin b) /\ a = map (fun y => y * d) b.
Proof. exact fpii_dark. Qed.
Print Assumptions C102_dark_scene_is_optics_emission.

Theorem C102_no_aperture_raises :
  forall L L_s t_opt e_opt wl d T f, length L = length wl ->
    focal_plane_integrated_irradiance L L_s t_opt e_opt wl d T 0 f = Err ZeroDivisionError.
Proof. exact fpii_no_aperture. Qed.
Print Assumptions C102_no_aperture_raises.

Example C102_ex : 0.1 <> 0 /\ length [3; 4] = length [8 / 10 ^ 6; 12 / 10 ^ 6] /\
  (forall x, In x [8 / 10 ^ 6; 12 / 10 ^ 6] -> x <> 0).
Proof. split; [lra|]. split; [reflexivity|]. intros x [<-|[<-|[]]]; lra. Qed.
