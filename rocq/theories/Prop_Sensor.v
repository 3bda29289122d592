(** * Prop_Sensor: theorems about Sensor and RefImage construction (C20-C22). *)
From Coq Require Import Reals Lra List ZArith Sorted Permutation.
From Verif Require Import Base_XR Base_Np Base_Percentile Model_Db Model_Scenario Model_Sensor Proof_Sensor Proof_Store Proof_Percentile.
Import ListNotations.
Open Scope R_scope.

(** ** C20 *)
Theorem C20_square_full_fill_by_default :
  forall D f p wl eta kw, p <> 0 ->
  exists s, sensor_init D f p wl eta None None None kw = Ok s /\
    s_py s = p /\ s_wx s = p /\ s_wy s = p.
Proof. exact sensor_defaults. Qed.
Print Assumptions C20_square_full_fill_by_default.

Theorem C20_given_values_are_stored :
  forall D f p wl eta py wx wy kw,
  exists s, sensor_init D f p wl eta (Some py) (Some wx) (Some wy) kw = Ok s /\
    s_px s = p /\ s_py s = py /\ s_wx s = wx /\ s_wy s = wy /\ s_D s = D /\ s_f s = f /\
    s_Lx s = D /\ s_Ly s = D /\ length (s_otr s) = length wl /\ length (s_qe s) = length wl /\
    (forall t, In t (s_otr s) -> t = 1) /\ (forall t, In t (s_qe s) -> t = 1).
Proof. exact sensor_stores. Qed.
Print Assumptions C20_given_values_are_stored.

Theorem C20_arguments_are_stored :
  forall D f p wl eta py wx wy kw s,
  sensor_init D f p wl eta py wx wy kw = Ok s ->
  s_D s = D /\ s_f s = f /\ s_px s = p /\ s_eta s = eta /\ s_owl s = wl /\ s_qwl s = wl /\
  s_int_time s = k_int_time kw /\ s_dark s = k_dark kw /\ s_other_irr s = k_other_irr kw /\
  s_read s = k_read kw /\ s_max_n s = k_max_n kw /\ s_max_fill s = k_max_fill kw /\
  s_bits s = k_bits kw /\ s_ntdi s = k_ntdi kw /\ s_T_shield s = k_T_shield kw /\
  s_T_opt s = k_T_opt kw /\ s_e_opt s = k_e_opt kw /\ s_t_filt s = k_t_filt kw /\
  s_T_filt s = k_T_filt kw /\ s_e_filt s = k_e_filt kw /\ s_sx s = k_sx kw /\ s_sy s = k_sy kw /\
  s_dax s = k_dax kw /\ s_day s = k_day kw /\ s_pv s = k_pv kw /\ s_pv_wl s = k_pv_wl kw.
Proof. exact sensor_keywords. Qed.
Print Assumptions C20_arguments_are_stored.

(* a sensor built without keyword arguments adds nothing of its own: no jitter,
   drift, wavefront error, dark current, read noise, emission or filtering *)
Theorem C20_default_values :
  forall D f p wl eta s,
  sensor_init D f p wl eta None None None default_kw = Ok s ->
  s_int_time s = 1 /\ s_dark s = 0 /\ s_other_irr s = 0 /\ s_read s = 0 /\ s_max_n s = 100000000 /\
  s_max_fill s = 1 /\ s_bits s = 100 /\ s_ntdi s = 1 /\ s_T_shield s = 70 /\ s_T_opt s = 270 /\
  s_e_opt s = 0 /\ s_t_filt s = 1 /\ s_T_filt s = 70 /\ s_e_filt s = 0 /\ s_sx s = 0 /\ s_sy s = 0 /\
  s_dax s = 0 /\ s_day s = 0 /\ s_pv s = 0 /\ s_pv_wl s = 0.000000633 /\
  s_other_noise s = [0] /\ s_kernel s = [[1]] /\ s_frames s = 1.
Proof. exact sensor_default_values. Qed.
Print Assumptions C20_default_values.

(* "Assume is same fill factor as along the x." *)
Theorem C20_same_fill_factor_refuted :
  ~ (forall D f p wl eta py wx kw s, 0 < p -> 0 < py -> 0 < wx <= p ->
       sensor_init D f p wl eta (Some py) (Some wx) None kw = Ok s ->
       s_wy s / s_py s = s_wx s / s_px s).
Proof. exact sensor_fill_refuted. Qed.
Print Assumptions C20_same_fill_factor_refuted.

Theorem C20_fill_factors_are_reciprocal :
  forall D f p wl eta py wx kw s, p <> 0 -> py <> 0 ->
    sensor_init D f p wl eta (Some py) (Some wx) None kw = Ok s ->
    (s_wy s / s_py s) * (s_wx s / s_px s) = 1.
Proof. exact sensor_wy. Qed.
Print Assumptions C20_fill_factors_are_reciprocal.

Theorem C20_same_fill_factor_only_when_full :
  forall D f p wl eta py wx kw s, 0 < p -> 0 < py -> 0 < wx ->
    sensor_init D f p wl eta (Some py) (Some wx) None kw = Ok s ->
    (s_wy s / s_py s = s_wx s / s_px s <-> wx = p).
Proof. exact sensor_wy_same_iff. Qed.
Print Assumptions C20_same_fill_factor_only_when_full.

Theorem C20_partial_fill_gives_overlapping_detectors :
  forall D f p wl eta py wx kw s, 0 < py -> 0 < wx < p ->
    sensor_init D f p wl eta (Some py) (Some wx) None kw = Ok s -> s_py s < s_wy s.
Proof. exact sensor_wy_exceeds_pitch. Qed.
Print Assumptions C20_partial_fill_gives_overlapping_detectors.

Theorem C20_zero_width_raises :
  forall D f p wl eta py kw,
  sensor_init D f p wl eta py (Some 0) None kw = Err ZeroDivisionError.
Proof. exact sensor_zero_width. Qed.
Print Assumptions C20_zero_width_raises.

Example C20_ex : exists s, sensor_init 0.1 1 (10 / 10 ^ 6) [4 / 10 ^ 7; 7 / 10 ^ 7] 0.4 (Some (10 / 10 ^ 6)) (Some (5 / 10 ^ 6)) None default_kw = Ok s
  /\ s_wy s = 20 / 10 ^ 6.
Proof. unfold sensor_init. rewrite pydiv_ok by lra. eexists; split; [reflexivity|]. simpl. lra. Qed.

(** ** C21 *)
Theorem C21_default_calibration :
  forall img gsd refl, img <> [] ->
  exists lo hi a b,
    ref_image_init img gsd None refl = Ok {| ri_img := img; ri_gsd := gsd; ri_pix := [lo; hi]; ri_refl := [0.05; 0.95] |} /\
    percentile img 0.2 = Ok lo /\ percentile img 99.8 = Ok hi /\
    In a img /\ In b img /\ a <= lo /\ lo <= hi /\ hi <= b.
Proof. exact ref_defaults. Qed.
Print Assumptions C21_default_calibration.

(* what a percentile is, without mentioning sorting: about q% of the pixels lie
   below the value *)
Theorem C21_percentile_rank :
  forall l q a, l <> [] -> 0 <= q <= 100 -> percentile l q = Ok a ->
  let h := INR (length l - 1) * (q / 100) in
  INR (length (filter (fun x => Rltb x a) l)) <= h + 1 /\
  h < INR (length (filter (fun x => Rleb x a) l)).
Proof. exact percentile_rank. Qed.
Print Assumptions C21_percentile_rank.

(* its value: linear between neighbours in the list put in order *)
Theorem C21_percentile_value :
  forall l q s k, 0 <= q <= 100 -> Permutation l s -> StronglySorted Rle s -> (k + 1 < length s)%nat ->
  INR k <= INR (length l - 1) * (q / 100) <= INR (k + 1) ->
  percentile l q = Ok (nth k s 0 + (INR (length l - 1) * (q / 100) - INR k) * (nth (k + 1) s 0 - nth k s 0)).
Proof. exact percentile_linear. Qed.
Print Assumptions C21_percentile_value.

Theorem C21_percentile_of_one : forall x q, 0 <= q <= 100 -> percentile [x] q = Ok x.
Proof. exact percentile_single. Qed.
Print Assumptions C21_percentile_of_one.

(* 30 percent of the way through four pixels lies 0.9 of a step after the least *)
Example C21_percentile_ex : Permutation [12; 7; 255; 0] [0; 7; 12; 255] /\ StronglySorted Rle [0; 7; 12; 255] /\
  INR 0 <= INR (length [12; 7; 255; 0] - 1) * (30 / 100) <= INR (0 + 1).
Proof.
  split; [|split; [repeat (constructor; try lra)|simpl; lra]].
  apply (Permutation_cons_app [0; 7] [255] 12). apply (Permutation_cons_app [0] [255] 7).
  apply perm_swap.
Qed.

Theorem C21_given_calibration_is_stored :
  forall img gsd p r, ref_image_init img gsd (Some p) (Some r)
  = Ok {| ri_img := img; ri_gsd := gsd; ri_pix := p; ri_refl := r |}.
Proof. exact ref_explicit. Qed.
Print Assumptions C21_given_calibration_is_stored.

Theorem C21_pixels_without_reflectance_rejected :
  forall img gsd p, ref_image_init img gsd (Some p) None = Err ValueError.
Proof. exact ref_missing_refl. Qed.
Print Assumptions C21_pixels_without_reflectance_rejected.

(* reflectances without pixel values are ignored *)
Theorem C21_reflectance_without_pixels_discarded :
  forall img gsd r, ref_image_init img gsd None (Some r) = ref_image_init img gsd None None.
Proof. exact ref_refl_discarded. Qed.
Print Assumptions C21_reflectance_without_pixels_discarded.

Example C21_ex : [12; 7; 255; 0] <> [].
Proof. discriminate. Qed.

(** ** C22 *)
Theorem C22_capture_parameters_match_image :
  forall ri alt, ri_gsd ri <> 0 -> alt <> 0 ->
  exists s w, estimate_capture_parameters ri alt = Ok (s, w) /\
    s_px s / s_f s * alt = ri_gsd ri /\ s_py s = s_px s /\ s_wx s = s_px s /\ s_wy s = s_px s /\
    540 / 10 ^ 9 / s_D s = (2 * atan (s_px s / 2 / s_f s)) / 4 /\
    plain (sc w) Cn2At1m = 0 /\ plain (sc w) HaWindSpeed = 0 /\ plain (sc w) AircraftSpeed = 0 /\
    altitude (sc w) = alt /\ ground_range (sc w) = 0 /\ interp (sc w) = false /\ ihaze (sc w) = 1%Z.
Proof. exact capture_ok. Qed.
Print Assumptions C22_capture_parameters_match_image.

Theorem C22_capture_fixed_values :
  forall ri alt s w, estimate_capture_parameters ri alt = Ok (s, w) ->
  s_px s = 0.00002 /\ s_eta s = 0 /\ s_owl s = [0.00000038; 0.0000007] /\ s_qwl s = s_owl s /\
  s_otr s = [1; 1] /\ s_qe s = [1; 1] /\
  plain (sc w) TargetReflectance = 0.15 /\ plain (sc w) TargetTemperature = 295 /\
  plain (sc w) BackgroundReflectance = 0.07 /\ plain (sc w) BackgroundTemperature = 293 /\
  heap w = [] /\ cache (sc w) = None.
Proof. exact capture_values. Qed.
Print Assumptions C22_capture_fixed_values.

Theorem C22_zero_gsd_raises :
  forall ri alt, ri_gsd ri = 0 -> estimate_capture_parameters ri alt = Err ZeroDivisionError.
Proof. exact capture_zero_gsd. Qed.
Print Assumptions C22_zero_gsd_raises.

Theorem C22_zero_altitude_raises :
  forall ri, estimate_capture_parameters ri 0 = Err ZeroDivisionError.
Proof. exact capture_zero_alt. Qed.
Print Assumptions C22_zero_altitude_raises.

(* with the default altitude the returned scenario has no atmosphere, whatever
   the database files contain *)
Theorem C22_default_scenario_has_no_atmosphere :
  forall st it ri s w, ri_gsd ri <> 0 ->
  estimate_capture_parameters ri default_capture_altitude = Ok (s, w) ->
  observe (load_no_interp st) it w = Err IndexError.
Proof. exact default_capture_atm. Qed.
Print Assumptions C22_default_scenario_has_no_atmosphere.

Example C22_ex : ri_gsd {| ri_img := [0; 10]; ri_gsd := 0.05; ri_pix := [0; 10]; ri_refl := [0.05; 0.95] |} <> 0.
Proof. simpl. lra. Qed.
