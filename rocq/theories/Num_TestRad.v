(** * Num_TestRad: the models of radiance/functional.py on the cases of
    /repo/tests/radiance/test_functional.py (snapshots in
    __snapshots__/test_functional.ambr).

    Left out: 2-D arrays of wavelengths, arrays of too few columns (an
    atmosphere is a list of rows here), and the cases that read the database
    files.  The expected value of test_cold_shield_self_emission is that of the
    cold stop; the test passes only because the absolute tolerance 1e-8 of
    np.isclose is far above both (see [test_cold_shield]). *)
From Coq Require Import Reals ZArith List Bool Lra Lia.
From Interval Require Import Tactic.
From Verif Require Import Base_XR Base_Np Model_Noise Model_Sensor Model_Rad Spec_Test Num_TestTac.
Import ListNotations.
Open Scope R_scope.

Ltac open_rad :=
  cbv beta iota zeta delta
   [ bind rmap pydiv xopp xadd xsub inf_sgn xmul xdiv xsq xsqrt xexp xlt xle xeq xmax xmin
     map2 bmap2 xsum Rsum xmaxl xminl xdiff xmids trapz repeat hc cc kc
     map length combine fold_right fold_left tl andb negb filter fst snd Nat.eqb
     interp_scan interp_tab interp_table np_interp
     at_focal_plane_irradiance blackbody_radiance1 blackbody_radiance check_well_fill check_well_fill_py
     cold_shield_self_emission cold_stop_self_emission focal_plane_integrated_irradiance optics_self_emission
     photon_detection_rate resample_by_wavelength signal_rate total_radiance1 total_radiance db_reflectance
     giqe_radiance returns is_near all_near Z.eqb a_wl a_trans a_path a_surf a_scat a_grnd ].
Ltac evalr := open_rad; repeat rdec.
Ltac conf := evalr; try reflexivity; try near_num; try (repeat constructor; near_num).

(* 23, 56 *)
Example test_photon_detection_rate_empty :
  photon_detection_rate [] 0 0 [] [] = Ok [] /\ photon_detection_rate [Fin 1] 0 0 [] [1] = Ok []
  /\ photon_detection_rate [] 0 0 [1] [1] = Ok [] /\ photon_detection_rate [Fin 1] 0 0 [1] [] = Ok [].
Proof. repeat split. Qed.
Example test_photon_detection_rate :
  returns (all_near (/ 10 ^ 8) [5.03411665e24]) (photon_detection_rate [Fin 1] 1 1 [1] [1])
  /\ returns (all_near (/ 10 ^ 8) [5.03411665e24; 5.03411665e24])
       (photon_detection_rate [Fin 1; Fin 1] 1 1 [1; 1] [1; 1]).
Proof. split; conf. Qed.

(* 76, 89, 108 *)
Example test_at_focal_plane_irradiance_errors :
  at_focal_plane_irradiance 0 0 [] = Err ZeroDivisionError
  /\ at_focal_plane_irradiance 0 1 [] = Err ZeroDivisionError
  /\ at_focal_plane_irradiance 1 0 [] = Ok [].
Proof. repeat split; conf. Qed.
Example test_at_focal_plane_irradiance :
  returns (all_near (/ 10 ^ 8) [3.14159265]) (at_focal_plane_irradiance 1 0 [Fin 1])
  /\ returns (all_near (/ 10 ^ 8) [0.62831853]) (at_focal_plane_irradiance 1 1 [Fin 1])
  /\ returns (all_near (/ 10 ^ 8) [0.62831853; 0.62831853]) (at_focal_plane_irradiance 1 1 [Fin 1; Fin 1])
  /\ returns (all_near (/ 10 ^ 8) [0.62831853; 1.25663706]) (at_focal_plane_irradiance 1 1 [Fin 1; Fin 2]).
Proof. repeat split; conf. Qed.

(* 121, 135; the absolute tolerance is taken as 0, since 1e-8 would accept anything *)
Example test_blackbody_radiance :
  blackbody_radiance [] 0 = [] /\ all_near 0 [8.21875092e-15] (blackbody_radiance [1] 1)
  /\ all_near 0 [8.21875092e-15; 8.21875092e-15] (blackbody_radiance [1; 1] 1).
Proof. repeat split; conf. Qed.

(* 160, 173, 210 *)
Example test_resample_errors :
  resample_by_wavelength [] [] [] = Err ValueError /\ resample_by_wavelength [1] [] [1] = Err ValueError
  /\ resample_by_wavelength [] [1] [1] = Err ValueError
  /\ resample_by_wavelength [1; 2] [1; 1.5; 2] [0; 1; 3] = Err ValueError
  /\ resample_by_wavelength [1; 2; 3] [1; 2] [0; 1; 3] = Err ValueError
  /\ resample_by_wavelength [1] [1] [] = Ok [].
Proof. repeat split. Qed.
Example test_resample :
  resample_by_wavelength [1] [1] [1] = Ok [1]
  /\ resample_by_wavelength [1; 2] [1; 3] [1; 1.5; 2] = Ok [1; 2; 3]
  /\ resample_by_wavelength [1; 2] [1; 2] [1; 2; 3] = Ok [1; 2; 0]
  /\ resample_by_wavelength [1; 2] [1; 2] [0; 1; 2] = Ok [0; 1; 2]
  /\ resample_by_wavelength [1; 2] [1; 2] [0; 1; 3] = Ok [0; 1; 0].
Proof. repeat split; evalr; repeat f_equal; lra. Qed.

(* 261, 358, 432, 527: value, irradiance, weights *)
Example test_signal_rate_zero_division :
  signal_rate [] [] [] 0 0 0 0 [] [] 0 = Err ZeroDivisionError
  /\ signal_rate [] [] [] 0 1 1 1 [] [] 1 = Err ZeroDivisionError.
Proof. split; conf. Qed.
Example test_signal_rate_empty :
  let empty := fun o => returns (fun t => is_near (/ 10 ^ 8) 1 (fst (fst t)) /\ snd (fst t) = [] /\ snd t = []) o in
  empty (signal_rate [] [] [] 1 1 1 1 [] [] 1) /\ empty (signal_rate [1] [Fin 1] [1] 1 1 1 1 [1] [] 1)
  /\ empty (signal_rate [1] [Fin 1] [] 1 1 1 1 [1] [Fin 1] 1)
  /\ empty (signal_rate [1] [] [1] 1 1 1 1 [1] [Fin 1] 1).
Proof. cbv beta zeta. repeat match goal with |- _ /\ _ => split end; evalr; repeat split; try reflexivity; near_num. Qed.
Example test_signal_rate_second_empty :
  let second := fun o => returns (fun t => is_near (/ 10 ^ 8) 1 (fst (fst t))
      /\ all_near (/ 10 ^ 8) [1.62831853] (snd (fst t)) /\ snd t = []) o in
  second (signal_rate [1] [Fin 1] [1] 1 1 1 1 [] [Fin 1] 1)
  /\ second (signal_rate [] [Fin 1] [1] 1 1 1 1 [1] [Fin 1] 1).
Proof.
  cbv beta zeta; split; evalr; repeat match goal with |- _ /\ _ => split end; try reflexivity;
  repeat constructor; near_num.
Qed.
Example test_signal_rate :
  let third := fun d es ws o => returns (fun t => is_near (/ 10 ^ 8) d (fst (fst t))
      /\ all_near (/ 10 ^ 8) es (snd (fst t)) /\ all_near (/ 10 ^ 8) ws (snd t)) o in
  third 1 [1.62831853] [8.19714543e24] (signal_rate [1] [Fin 1] [1] 1 1 1 1 [1] [Fin 1] 1)
  /\ third 1 [1.62831853; 1.62831853] [8.19714543e24; 8.19714543e24]
       (signal_rate [1; 1] [Fin 1; Fin 1] [1; 1] 1 1 1 1 [1; 1] [Fin 1; Fin 1] 1)
  /\ third 2 [1.62831853; 1.62831853] [8.19714543e24; 8.19714543e24]
       (signal_rate [1; 1] [Fin 1; Fin 1] [1; 1] 1 1 1 1 [1; 1] [Fin 1; Fin 1] 2).
Proof.
  cbv beta zeta; repeat match goal with |- _ /\ _ => split end; evalr;
  repeat match goal with |- _ /\ _ => split end; repeat constructor; near_num.
Qed.

(* 565-803 *)
Example test_self_emission_errors :
  cold_stop_self_emission [] 0 0 0 0 = Err ZeroDivisionError /\ cold_stop_self_emission [] 1 1 0 1 = Err ZeroDivisionError
  /\ optics_self_emission [] 0 0 0 0 0 = Err ZeroDivisionError /\ optics_self_emission [] 1 1 1 0 1 = Err ZeroDivisionError
  /\ cold_shield_self_emission [] 0 0 0 = Err ZeroDivisionError /\ cold_shield_self_emission [] 1 0 1 = Err ZeroDivisionError
  /\ cold_stop_self_emission [] 0 0 1 0 = Ok [] /\ cold_stop_self_emission [] 1 1 1 1 = Ok []
  /\ optics_self_emission [] 0 0 0 1 0 = Ok [] /\ optics_self_emission [] 1 1 1 1 1 = Ok []
  /\ cold_shield_self_emission [] 0 1 0 = Ok [] /\ cold_shield_self_emission [] 1 1 1 = Ok [].
Proof. repeat split; conf. Qed.
Example test_self_emission :
  returns (all_near (/ 10 ^ 8) [0]) (cold_stop_self_emission [1] 0 0 1 0)
  /\ returns (all_near 0 [5.16399351e-15]) (cold_stop_self_emission [1] 1 1 1 1)
  /\ returns (all_near 0 [5.16399351e-15; 5.16399351e-15]) (cold_stop_self_emission [1; 1] 1 1 1 1)
  /\ returns (all_near (/ 10 ^ 8) [0]) (optics_self_emission [1] 0 0 0 1 0)
  /\ returns (all_near 0 [5.16399351e-15]) (optics_self_emission [1] 1 1 1 1 1)
  /\ returns (all_near 0 [5.16399351e-15; 5.16399351e-15]) (optics_self_emission [1; 1] 1 1 1 1 1).
Proof. repeat split; conf. Qed.
(* 803: agreement to 1e-8, but the value is four times the expected one *)
Example test_cold_shield :
  returns (all_near (/ 10 ^ 8) [5.16399351e-15]) (cold_shield_self_emission [1] 1 1 1)
  /\ returns (all_near 0 [4 * 5.16399351e-15]) (cold_shield_self_emission [1] 1 1 1)
  /\ ~ returns (all_near 0 [5.16399351e-15]) (cold_shield_self_emission [1] 1 1 1).
Proof.
  split; [conf|split; [conf|]]. intros A. revert A. evalr. intros A.
  inversion A as [|? ? ? ? B _]. cbv beta iota delta [near] in B. revert B. apply Rlt_not_le. interval with (i_prec 100).
Qed.

(* 853, 1166: six rows of ones *)
Definition ones : arow := {| a_wl := 1; a_trans := 1; a_path := 1; a_surf := 1; a_scat := 1; a_grnd := 1 |}.
Lemma all_near_repeat tol e x n : is_near tol e x -> all_near tol (repeat e n) (repeat x n).
Proof. intros A; induction n as [|n IH]; constructor; auto. Qed.
Lemma map_repeat A B (f : A -> B) x n : map f (repeat x n) = repeat (f x) n.
Proof. induction n as [|n IH]; cbn; now rewrite ?IH. Qed.
Ltac row := rewrite map_repeat; apply all_near_repeat; unfold ones; evalr; near_num.
Example test_total_radiance :
  all_near (/ 10 ^ 8) (repeat 2 6) (total_radiance (repeat ones 6) 0 0)
  /\ all_near (/ 10 ^ 8) (repeat 8.66666667 6) (total_radiance (repeat ones 6) 1 1).
Proof. unfold total_radiance; split; row. Qed.
Example test_giqe_radiance :
  all_near (/ 10 ^ 8) (repeat 3 6) (fst (giqe_radiance (repeat ones 6) 0))
  /\ all_near (/ 10 ^ 8) (repeat 2.46666667 6) (snd (giqe_radiance (repeat ones 6) 0))
  /\ all_near (/ 10 ^ 8) (repeat 2 6) (fst (giqe_radiance (repeat ones 6) 1))
  /\ all_near (/ 10 ^ 8) (repeat 2 6) (snd (giqe_radiance (repeat ones 6) 1)).
Proof. unfold giqe_radiance, total_radiance; cbn [Z.eqb negb fst snd]; repeat split; row. Qed.

(* 1059 *)
Example test_focal_plane_integrated_irradiance :
  focal_plane_integrated_irradiance [] 0 0 0 [] 0 0 0 0 = Err ZeroDivisionError
  /\ focal_plane_integrated_irradiance [] 1 1 1 [] 1 1 1 1 = Ok []
  /\ returns (all_near 0 [1.2566370614359221; 2.199114857512855; 2.5132741228718345])
       (focal_plane_integrated_irradiance [Fin 1; Fin 2.5; Fin 3] 1 1 1 [1; 2.5; 3] 1 1 1 1)
  /\ returns (all_near 0 [2.590279516178759; 6.475236295590437; 7.770221888727886])
       (focal_plane_integrated_irradiance [Fin 1; Fin 2.5; Fin 3] 0.0001 0.84 0.16 [1; 2.5; 3] 2.5 70 4 0.275).
Proof. repeat split; conf. Qed.

(* 1088: snapshots 1, 0, 1, 0.75 *)
Example test_check_well_fill :
  check_well_fill_py 0 0 = Ok 1 /\ check_well_fill_py 1 0 = Ok 0
  /\ check_well_fill_py 0 1 = Ok 1 /\ check_well_fill_py 2 1.5 = Ok 0.75.
Proof. repeat split; evalr; try reflexivity; f_equal; lra. Qed.

(** ** photon_detector_SNR (1144) *)
(* Sensor("Test", 1.0, 1.0, 1.0, [0.0, 1.0]) *)
Definition test_sensor : sensor :=
  {| s_D := 1; s_f := 1; s_px := 1; s_py := 1; s_wx := 1; s_wy := 1; s_eta := 0;
     s_owl := [0; 1]; s_otr := [1; 1]; s_qwl := [0; 1]; s_qe := [1; 1];
     s_int_time := 1; s_dark := 0; s_other_irr := 0; s_read := 0; s_max_n := 100000000;
     s_max_fill := 1; s_bits := 100; s_ntdi := 1;
     s_T_shield := 70; s_T_opt := 270; s_e_opt := 0; s_t_filt := 1; s_T_filt := 70; s_e_filt := 0;
     s_sx := 0; s_sy := 0; s_dax := 0; s_day := 0; s_pv := 0; s_pv_wl := 0.633 / 10 ^ 6;
     s_Lx := 1; s_Ly := 1; s_other_noise := [0]; s_kernel := [[1]]; s_frames := 1 |}.
Example test_sensor_built : sensor_init 1 1 1 [0; 1] 0 None None None default_kw = Ok test_sensor.
Proof. unfold sensor_init; cbv beta iota zeta delta [bind pydiv]; rdec1; cbv iota. replace (1 / 1 * 1) with 1 by lra. reflexivity. Qed.

(* one snapshot: the numbers first, then the arrays *)
Definition snapshot (rate n noise_self int_time well : R) (sig total : R)
    (trans qe other irr weights : list R) (m : snr_metrics) : Prop :=
  (is_near 0 rate (m_bkg_rate m) /\ is_near 0 rate (m_tgt_rate m) /\ is_near 0 n (m_bkg_n m) /\ is_near 0 n (m_tgt_n m)
   /\ is_near 0 0 (m_contrast m) /\ is_near 0 0 (m_snr m) /\ is_near 0 0 (m_dark_noise m)
   /\ is_near 0 int_time (m_int_time m) /\ is_near 0 2.2772452799126154e-23 (m_quant_noise m)
   /\ is_near 0 noise_self (m_self_noise m) /\ is_near 0 sig (m_signal_noise m) /\ is_near 0 total (m_total_noise m)
   /\ is_near 0 well (m_well_fraction m))
  /\ all_near 0 trans (map Fin (m_opt_trans m)) /\ all_near 0 qe (map Fin (m_qe m))
  /\ all_near 0 other (m_other_irr m) /\ all_near 0 irr (m_bkg_irr m) /\ all_near 0 irr (m_tgt_irr m)
  /\ all_near 0 weights (m_weights m).
Lemma quant_value : exists q, quantization_noise 100000000 100 = Fin q
  /\ 2.2772452799126e-23 <= q <= 2.27724527991262e-23.
Proof.
  exists (100000000 / (sqrt 12 * (Rpower 2 100 - 1))). unfold quantization_noise, xdiv.
  replace (Reqb (sqrt 12 * (Rpower 2 100 - 1)) 0) with false
    by (symmetry; apply Reqb_false, Rgt_not_eq; unfold Rpower; interval).
  split; [reflexivity|]. unfold Rpower. split; interval with (i_prec 120).
Qed.
Lemma snr_stages wl tr br ot qe oth rt it wt rb ib wb dn self :
  let s := test_sensor in
  sensor_opt_trans s wl = Ok ot -> sensor_qe s wl = Ok qe -> sensor_other_irradiance s wl = Ok oth ->
  signal_rate wl tr ot 1 1 1 1 qe oth 0 = Ok (Fin rt, it, wt) -> signal_rate wl br ot 1 1 1 1 qe oth 0 = Ok (Fin rb, ib, wb) ->
  photon_detection_rate oth 1 1 wl qe = Ok dn -> trapz dn (map Fin wl) = Ok (Fin self) ->
  forall P : snr_metrics -> Prop, (let c := check_well_fill (xmax (Fin (rt * 1 * 1)) (Fin (rb * 1 * 1))) (1 * 100000000) in
    let tn := xmul c (Fin (rt * 1 * 1)) in let bn := xmul c (Fin (rb * 1 * 1)) in let t := xmul c (Fin 1) in
    let sn := xsqrt (xmax tn bn) in let q := quantization_noise 100000000 100 in
    let total := xsqrt (xadd (xadd (xadd (xsq sn) (xsq q)) (Fin (0 * 0))) (Fin (0 * 0 + 0))) in
    P {| m_opt_trans := ot; m_qe := qe; m_other_irr := oth;
        m_tgt_rate := Fin rt; m_tgt_irr := it; m_weights := wt; m_tgt_n := tn;
        m_bkg_rate := Fin rb; m_bkg_irr := ib; m_bkg_n := bn;
        m_int_time := t; m_well_fraction := xdiv (xmax tn bn) (Fin 100000000); m_contrast := xsub tn bn;
        m_signal_noise := sn; m_dark_noise := xsqrt (xmul (Fin (1 * 0)) t); m_quant_noise := q;
        m_self_noise := xsqrt (xmul (xmul (Fin self) t) (Fin 1)); m_total_noise := total; m_snr := xdiv (xsub tn bn) total |}) ->
  returns P (photon_detector_SNR s wl tr br).
Proof.
  intros s H1 H2 H3 H4 H5 H6 H7 P H. unfold photon_detector_SNR.
  rewrite H1; cbv beta iota delta [bind]. rewrite H2; cbv beta iota. rewrite H3; cbv beta iota.
  change (s_D s) with 1; change (s_f s) with 1; change (s_wx s) with 1; change (s_wy s) with 1; change (s_dark s) with 0.
  rewrite H4; cbv beta iota. rewrite H5; cbv beta iota zeta. rewrite H6; cbv beta iota. rewrite H7; cbv beta iota. exact H.
Qed.
Ltac zero_num := unfold near; match goal with |- Rabs (?x - 0) <= _ =>
  replace x with 0 by (rewrite ?Rmult_0_l, ?Rmult_0_r, ?Rplus_0_l, ?sqrt_0; field; interval); interval end.
(* the stages in the order of the function; the last one compares with the snapshot *)
Ltac snr_value := open_rad; repeat rdec; first [reflexivity | near_num | zero_num | now constructor | (repeat constructor; near_num)].

Ltac fields E := cbv beta zeta; rewrite ?E;
  cbv beta iota delta [snapshot m_opt_trans m_qe m_other_irr m_tgt_rate m_tgt_irr m_weights m_tgt_n
    m_bkg_rate m_bkg_irr m_bkg_n m_int_time m_well_fraction m_contrast m_signal_noise m_dark_noise m_quant_noise
    m_self_noise m_total_noise m_snr];
  repeat match goal with |- _ /\ _ => split end; snr_value.

Ltac open_other := unfold sensor_opt_trans, sensor_qe, sensor_other_irradiance;
  cbv beta iota delta [test_sensor s_D s_f s_eta s_owl s_otr s_qwl s_qe s_T_shield s_T_opt s_e_opt s_t_filt s_T_filt s_e_filt].
Lemma curves_none : sensor_opt_trans test_sensor [] = Ok [] /\ sensor_qe test_sensor [] = Ok []
  /\ sensor_other_irradiance test_sensor [] = Ok [].
Proof. repeat split; open_other; evalr; reflexivity. Qed.
Lemma curves_one : sensor_opt_trans test_sensor [1] = Ok [1] /\ sensor_qe test_sensor [1] = Ok [1].
Proof. split; open_other; evalr; repeat f_equal; lra. Qed.
Lemma other_one : exists a, sensor_other_irradiance test_sensor [1] = Ok [Fin a] /\ 1.456220345e-12 <= a <= 1.456220355e-12.
Proof.
  eexists. split; [open_other; evalr; reflexivity|]. split; interval with (i_prec 100).
Qed.
Lemma curves_three : sensor_opt_trans test_sensor [1; 2.5; 3] = Ok [1; 0; 0] /\ sensor_qe test_sensor [1; 2.5; 3] = Ok [1; 0; 0].
Proof. split; open_other; evalr; repeat f_equal; lra. Qed.
Lemma other_three : exists a b c, sensor_other_irradiance test_sensor [1; 2.5; 3] = Ok [Fin a; Fin b; Fin c]
  /\ 1.456220345e-12 <= a <= 1.456220355e-12 /\ 3.728153985e-14 <= b <= 3.728153995e-14 /\ 1.797926085e-14 <= c <= 1.797926095e-14.
Proof.
  eexists _, _, _. split; [open_other; evalr; reflexivity|]. repeat split; interval with (i_prec 100).
Qed.
Lemma dark q : 2.2772452799126e-23 <= q <= 2.27724527991262e-23 -> quantization_noise 100000000 100 = Fin q ->
  forall ot qe oth it wt ib wb dn wl tr br, let s := test_sensor in
  sensor_opt_trans s wl = Ok ot -> sensor_qe s wl = Ok qe -> sensor_other_irradiance s wl = Ok oth ->
  signal_rate wl tr ot 1 1 1 1 qe oth 0 = Ok (Fin (0 + 0), it, wt) -> signal_rate wl br ot 1 1 1 1 qe oth 0 = Ok (Fin (0 + 0), ib, wb) ->
  photon_detection_rate oth 1 1 wl qe = Ok dn -> trapz dn (map Fin wl) = Ok (Fin 0) ->
  forall trans qeff other irr weights,
  all_near 0 trans (map Fin ot) -> all_near 0 qeff (map Fin qe) -> all_near 0 other oth ->
  all_near 0 irr ib -> all_near 0 irr it -> all_near 0 weights wt ->
  returns (snapshot 0 0 0 1 0 0 2.2772452799126154e-23 trans qeff other irr weights) (photon_detector_SNR s wl tr br).
Proof.
  intros B E ot qe oth it wt ib wb dn wl tr br s H1 H2 H3 H4 H5 H6 H7 trans qeff other irr weights A1 A2 A3 A4 A5 A6.
  apply (snr_stages wl tr br ot qe oth (0 + 0) it wt (0 + 0) ib wb dn 0 H1 H2 H3 H4 H5 H6 H7).
  cbv beta zeta; rewrite ?E.
  cbv beta iota delta [snapshot m_opt_trans m_qe m_other_irr m_tgt_rate m_tgt_irr m_weights m_tgt_n
    m_bkg_rate m_bkg_irr m_bkg_n m_int_time m_well_fraction m_contrast m_signal_noise m_dark_noise m_quant_noise
    m_self_noise m_total_noise m_snr].
  repeat match goal with |- _ /\ _ => split end; try assumption; clear - B; snr_value.
Qed.
(* sensors 0, 2, 3: no wavelengths *)
Example test_snr_0 : forall tr br, In (tr, br) [([], []); ([Fin 1], []); ([], [Fin 1])] ->
  returns (snapshot 0 0 0 1 0 0 2.2772452799126154e-23 [] [] [] [] []) (photon_detector_SNR test_sensor [] tr br).
Proof.
  destruct quant_value as (q & E & B). destruct curves_none as (H1 & H2 & H3). intros tr br I.
  apply (dark q B E [] [] [] [] [] [] [] [] [] tr br H1 H2 H3); try (now constructor); try reflexivity.
  all: cbn [In] in I; repeat (destruct I as [I|I]; [injection I as <- <-; clear; evalr; reflexivity|]); destruct I.
Qed.
(* sensor 1 *)
Example test_snr_1 :
  returns (snapshot 0 0 0 1 0 0 2.2772452799126154e-23 [1] [1] [1.45622035e-12] [] []) (photon_detector_SNR test_sensor [1] [] []).
Proof.
  destruct quant_value as (q & E & B). destruct curves_one as (H1 & H2). destruct other_one as (a & H3 & A).
  eapply (dark q B E [1] [1] [Fin a] [] [] [] [] _ [1] [] [] H1 H2 H3); [clear; evalr; reflexivity ..| | | | | |]; snr_value.
Qed.
(* sensor 4 *)
Example test_snr_4 :
  returns (snapshot 0 0 0 1 0 0 2.2772452799126154e-23 [1] [1] [1.45622035e-12] [0.62831853] [3.16302878e24])
    (photon_detector_SNR test_sensor [1] [Fin 1] [Fin 1]).
Proof.
  destruct quant_value as (q & E & B). destruct curves_one as (H1 & H2). destruct other_one as (a & H3 & A).
  eapply (dark q B E [1] [1] [Fin a] _ _ _ _ _ [1] [Fin 1] [Fin 1] H1 H2 H3); [clear; evalr; reflexivity ..| | | | | |]; snr_value.
Qed.
(* sensor 5 *)
Lemma rate_three a b c : 1.456220345e-12 <= a <= 1.456220355e-12 -> 3.728153985e-14 <= b <= 3.728153995e-14 ->
  1.797926085e-14 <= c <= 1.797926095e-14 -> exists r it wt,
  signal_rate [1; 2.5; 3] [Fin 1; Fin 2.5; Fin 3] [1; 0; 0] 1 1 1 1 [1; 0; 0] [Fin a; Fin b; Fin c] 0 = Ok (Fin r, it, wt)
  /\ 2.3722715825e24 <= r <= 2.372271584e24 /\ all_near 0 [6.28318531e-01; 3.72815399e-14; 1.79792609e-14] it
  /\ all_near 0 [3.16302878e24; 0; 0] wt.
Proof.
  intros A B C. eexists _, _, _. split; [evalr; reflexivity|]. split; [split; interval with (i_prec 100)|].
  split; repeat (apply Forall2_cons || apply Forall2_nil); cbv beta iota delta [is_near]; first [near_num|zero_num].
Qed.
Lemma self_three a b c : 1.456220345e-12 <= a <= 1.456220355e-12 -> 3.728153985e-14 <= b <= 3.728153995e-14 ->
  1.797926085e-14 <= c <= 1.797926095e-14 -> exists dn r,
  photon_detection_rate [Fin a; Fin b; Fin c] 1 1 [1; 2.5; 3] [1; 0; 0] = Ok dn /\ trapz dn (map Fin [1; 2.5; 3]) = Ok (Fin r)
  /\ 5.4980e12 <= r <= 5.4981e12.
Proof.
  intros A B C. eexists _, _. split; [evalr; reflexivity|]. split; [evalr; reflexivity|]. 
split; interval with (i_prec 100).
Qed.
Example test_snr_5 :
  returns (snapshot 2.372271583273823e+24 100000000 0.01522381908344492 4.215368961339421e-17 1 10000 10000
     [1; 0; 0] [1; 0; 0] [1.45622035e-12; 3.72815399e-14; 1.79792609e-14]
     [6.28318531e-01; 3.72815399e-14; 1.79792609e-14] [3.16302878e24; 0; 0])
    (photon_detector_SNR test_sensor [1; 2.5; 3] [Fin 1; Fin 2.5; Fin 3] [Fin 1; Fin 2.5; Fin 3]).
Proof.
  destruct quant_value as (q & E & B). destruct curves_three as (H1 & H2). destruct other_three as (a & b & c & H3 & A1 & A2 & A3).
  destruct (rate_three a b c A1 A2 A3) as (r & it & wt & H4 & R & I & W).
  destruct (self_three a b c A1 A2 A3) as (dn & m & H5 & H6 & M).
  apply (snr_stages _ _ _ _ _ _ r it wt r it wt dn m H1 H2 H3 H4 H4 H5 H6).
  cbv beta zeta; rewrite ?E. clear H1 H2 H3 H4 H5 H6 E.
  replace (check_well_fill (xmax (Fin (r * 1 * 1)) (Fin (r * 1 * 1))) (1 * 100000000)) with (Fin (100000000 / r))
    by (open_rad; repeat rdec; f_equal; field; lra).
  cbv beta iota delta [snapshot m_opt_trans m_qe m_other_irr m_tgt_rate m_tgt_irr m_weights m_tgt_n
    m_bkg_rate m_bkg_irr m_bkg_n m_int_time m_well_fraction m_contrast m_signal_noise m_dark_noise m_quant_noise
    m_self_noise m_total_noise m_snr].
  replace (xmul (Fin (100000000 / r)) (Fin (r * 1 * 1))) with (Fin 100000000) by (cbn [xmul]; f_equal; field; lra).
  repeat match goal with |- _ /\ _ => split end; try assumption; try snr_value;
    repeat (apply Forall2_cons || apply Forall2_nil); cbv beta iota delta [is_near]; first [near_num|zero_num].
Qed.
