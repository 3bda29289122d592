(** * Model_Rad: src/pybsm/radiance/functional.py, function by function.

    Arrays of wavelengths, transmissions and efficiencies hold finite numbers
    ([list R]); computed arrays hold numpy float64 values ([list xr]). *)
From Coq Require Import Reals ZArith List Bool.
From Verif Require Import Base_XR Base_Np Model_Noise Model_Sensor.
Import ListNotations.
Open Scope R_scope.

(* radiance/functional.py:51-54 *)
Definition hc : R := 6.62607004 / 10 ^ 34.
Definition cc : R := 299792458.
Definition kc : R := 1.38064852 / 10 ^ 23.

(* One row of an atmosphere array (utils.py:43-62): wavelength (m),
   transmission, path thermal, surface emission, solar scattering, ground
   reflected. *)
Record arow := { a_wl : R; a_trans : R; a_path : R; a_surf : R; a_scat : R; a_grnd : R }.

(* radiance/functional.py:57-95  at_focal_plane_irradiance
     E = L * np.pi / (1.0 + 4.0 * (f / D) ** 2.0)
   f, D are Python floats. The warning for empty L is not modelled. *)
Definition at_focal_plane_irradiance (D f : R) (L : list xr) : res (list xr) :=
  let* q := pydiv f D in
  Ok (map (fun l => xdiv (xmul l (Fin PI)) (Fin (1 + 4 * (q * q)))) L).

(* radiance/functional.py:98-122  blackbody_radiance, one wavelength
     Lbb = (2.0*hc*cc**2.0 / lambda0**5.0) * (np.exp(hc*cc / (lambda0*kc*T)) - 1.0) ** (-1.0) *)
Definition blackbody_radiance1 (lambda0 T : R) : xr :=
  xmul (xdiv (Fin (2 * hc * (cc * cc))) (Fin (lambda0 ^ 5)))
       (xdiv (Fin 1) (xsub (xexp (xdiv (Fin (hc * cc)) (Fin (lambda0 * kc * T)))) (Fin 1))).
Definition blackbody_radiance (lambda0 : list R) (T : R) : list xr :=
  map (fun l => blackbody_radiance1 l T) lambda0.

(* radiance/functional.py:125-144  check_well_fill.  photon_detector_SNR passes
   a numpy scalar, so the division does not raise. *)
Definition check_well_fill (total_photoelectrons : xr) (max_fill : R) : xr :=
  if xlt (Fin max_fill) total_photoelectrons
  then xdiv (Fin max_fill) total_photoelectrons else Fin 1.
(* the same function called with Python floats *)
Definition check_well_fill_py (total_photoelectrons max_fill : R) : res R :=
  if Rltb max_fill total_photoelectrons
  then pydiv max_fill total_photoelectrons else Ok 1.

(* radiance/functional.py:147-186  cold_shield_self_emission
     (np.pi - np.pi / (4.0*(f/D)**2.0 + 1.0)) * blackbody_radiance(wavelengths, T) *)
Definition cold_shield_self_emission (wl : list R) (T D f : R) : res (list xr) :=
  let* q := pydiv f D in
  Ok (map (xmul (Fin (PI - PI / (4 * (q * q) + 1)))) (blackbody_radiance wl T)).

(* radiance/functional.py:189-228  cold_stop_self_emission *)
Definition cold_stop_self_emission (wl : list R) (T emissivity D f : R) : res (list xr) :=
  at_focal_plane_irradiance D f (map (xmul (Fin emissivity)) (blackbody_radiance wl T)).

(* radiance/functional.py:231-282  focal_plane_integrated_irradiance
     L = t_opt*L + e_opt*blackbody_radiance(lambda0, T)*d_lambda + L_s *)
Definition focal_plane_integrated_irradiance (L : list xr) (L_s t_opt e_opt : R)
    (lambda0 : list R) (d_lambda T D f : R) : res (list xr) :=
  let* L1 := bmap2 xadd (map (xmul (Fin t_opt)) L)
               (map (fun b => xmul (xmul (Fin e_opt) b) (Fin d_lambda)) (blackbody_radiance lambda0 T)) in
  at_focal_plane_irradiance D f (map (fun x => xadd x (Fin L_s)) L1).

(* radiance/functional.py:285-331  optics_self_emission *)
Definition optics_self_emission (wl : list R) (T emissivity filt_trans D f : R) : res (list xr) :=
  at_focal_plane_irradiance D f (map (xmul (Fin (filt_trans * emissivity))) (blackbody_radiance wl T)).

(* radiance/functional.py:334-373  photon_detection_rate
     dN = (wavelengths / (hc*cc)) * qe * w_x * w_y * E *)
Definition photon_detection_rate (E : list xr) (w_x w_y : R) (wl qe : list R) : res (list xr) :=
  let* a := bmap2 (fun l q => l / (hc * cc) * q) wl qe in
  bmap2 (fun x e => xmul (Fin (x * w_x * w_y)) e) a E.

(* radiance/functional.py:836-859  resample_by_wavelength: np.interp(new, wl, values, 0.0, 0.0) *)
Definition resample_by_wavelength (wl values new : list R) : res (list R) :=
  let* tab := interp_table wl values in
  Ok (map (fun x => interp_tab x tab 0 0) new).

(* radiance/functional.py:656-740  signal_rate.  np.trapz(tgt_dN, wavelengths) + dark_current *)
Definition signal_rate (wl : list R) (target_radiance : list xr) (opt_trans : list R) (D f w_x w_y : R)
    (qe : list R) (other_irradiance : list xr) (dark_current : R) : res (xr * list xr * list xr) :=
  let* e0 := at_focal_plane_irradiance D f target_radiance in
  let* e1 := bmap2 (fun t e => xmul (Fin t) e) opt_trans e0 in
  let* tgt_FPA_irradiance := bmap2 xadd e1 other_irradiance in
  let* tgt_dN := photon_detection_rate tgt_FPA_irradiance w_x w_y wl qe in
  let* integral := trapz tgt_dN (map Fin wl) in
  Ok (xadd integral (Fin dark_current), tgt_FPA_irradiance, tgt_dN).

(* radiance/functional.py:743-777  total_radiance, one row
     atm[:,2] + (1.0-reflectance)*blackbody_radiance(atm[:,0], T)*atm[:,1] + atm[:,4]
       + atm[:,5]*(reflectance/db_reflectance) *)
Definition db_reflectance : R := 0.15.
Definition total_radiance1 (reflectance T : R) (a : arow) : xr :=
  xadd (xadd (xadd (Fin (a_path a))
                   (xmul (xmul (Fin (1 - reflectance)) (blackbody_radiance1 (a_wl a) T)) (Fin (a_trans a))))
             (Fin (a_scat a)))
       (Fin (a_grnd a * (reflectance / db_reflectance))).
Definition total_radiance (atm : list arow) (reflectance T : R) : list xr :=
  map (total_radiance1 reflectance T) atm.

(* radiance/functional.py:780-833  giqe_radiance; a Python int is true unless 0 *)
Definition giqe_radiance (atm : list arow) (is_emissive : Z) : list xr * list xr :=
  let tgt_temp := 282 in let bkg_temp := 280 in
  let tgt_ref := 0.15 in let bkg_ref := 0.07 in
  if negb (Z.eqb is_emissive 0)
  then (total_radiance atm 0 tgt_temp, total_radiance atm 0 bkg_temp)
  else (total_radiance atm tgt_ref tgt_temp, total_radiance atm bkg_ref bkg_temp).

(* radiance/functional.py:410-424 and 591-601  band transmission and quantum
   efficiency on the radiance wavelengths *)
Definition sensor_opt_trans (s : sensor) (wl : list R) : res (list R) :=
  let* t := resample_by_wavelength (s_owl s) (s_otr s) wl in
  Ok (map (Rmult (s_t_filt s * (1 - s_eta s * s_eta s))) t).
Definition sensor_qe (s : sensor) (wl : list R) : res (list R) :=
  resample_by_wavelength (s_qwl s) (s_qe s) wl.
(* radiance/functional.py:425-447 and 606-623  self emission of the camera *)
Definition sensor_other_irradiance (s : sensor) (wl : list R) : res (list xr) :=
  let* a := cold_shield_self_emission wl (s_T_shield s) (s_D s) (s_f s) in
  let* b := optics_self_emission wl (s_T_opt s) (s_e_opt s) (s_t_filt s) (s_D s) (s_f s) in
  let* ab := bmap2 xadd a b in
  let* c := cold_stop_self_emission wl (s_T_filt s) (s_e_filt s) (s_D s) (s_f s) in
  bmap2 xadd ab c.

(* radiance/snr_metrics.py:20-46  the result object *)
Record snr_metrics := {
  m_opt_trans : list R; m_qe : list R; m_other_irr : list xr;
  m_tgt_rate : xr; m_tgt_irr : list xr; m_weights : list xr; m_tgt_n : xr;
  m_bkg_rate : xr; m_bkg_irr : list xr; m_bkg_n : xr;
  m_int_time : xr; m_well_fraction : xr; m_contrast : xr;
  m_signal_noise : xr; m_dark_noise : xr; m_quant_noise : xr; m_self_noise : xr;
  m_total_noise : xr; m_snr : xr }.

(* radiance/functional.py:376-532  photon_detector_SNR *)
Definition photon_detector_SNR (s : sensor) (wl : list R) (target_radiance background_radiance : list xr)
    : res snr_metrics :=
  let* opt_trans := sensor_opt_trans s wl in
  let* qe := sensor_qe s wl in
  let* other := sensor_other_irradiance s wl in
  let* (tgt_rate, tgt_irr, weights) :=
    signal_rate wl target_radiance opt_trans (s_D s) (s_f s) (s_wx s) (s_wy s) qe other (s_dark s) in
  let tgt_n0 := xmul (xmul tgt_rate (Fin (s_int_time s))) (Fin (s_ntdi s)) in
  let* (bkg_rate, bkg_irr, _) :=
    signal_rate wl background_radiance opt_trans (s_D s) (s_f s) (s_wx s) (s_wy s) qe other (s_dark s) in
  let bkg_n0 := xmul (xmul bkg_rate (Fin (s_int_time s))) (Fin (s_ntdi s)) in
  let scale_factor := check_well_fill (xmax tgt_n0 bkg_n0) (s_max_fill s * s_max_n s) in
  let tgt_n := xmul scale_factor tgt_n0 in
  let bkg_n := xmul scale_factor bkg_n0 in
  let int_time := xmul scale_factor (Fin (s_int_time s)) in
  let well_fraction := xdiv (xmax tgt_n bkg_n) (Fin (s_max_n s)) in
  let contrast := xsub tgt_n bkg_n in
  let signal_noise := xsqrt (xmax tgt_n bkg_n) in
  let dark_noise := xsqrt (xmul (Fin (s_ntdi s * s_dark s)) int_time) in
  let quant := quantization_noise (s_max_n s) (s_bits s) in
  let* dn := photon_detection_rate other (s_wx s) (s_wy s) wl qe in
  let* self := trapz dn (map Fin wl) in
  let self_noise := xsqrt (xmul (xmul self int_time) (Fin (s_ntdi s))) in
  let total := xsqrt (xadd (xadd (xadd (xsq signal_noise) (xsq quant)) (Fin (s_read s * s_read s)))
                           (Fin (Rsum (map (fun x => x * x) (s_other_noise s))))) in
  Ok {| m_opt_trans := opt_trans; m_qe := qe; m_other_irr := other;
        m_tgt_rate := tgt_rate; m_tgt_irr := tgt_irr; m_weights := weights; m_tgt_n := tgt_n;
        m_bkg_rate := bkg_rate; m_bkg_irr := bkg_irr; m_bkg_n := bkg_n;
        m_int_time := int_time; m_well_fraction := well_fraction; m_contrast := contrast;
        m_signal_noise := signal_noise; m_dark_noise := dark_noise; m_quant_noise := quant;
        m_self_noise := self_noise; m_total_noise := total; m_snr := xdiv contrast total |}.

(* a[0], a[-1] *)
Definition first_of (l : list R) : res R := match l with [] => Err IndexError | x :: _ => Ok x end.
Fixpoint last_of (l : list R) : res R :=
  match l with [] => Err IndexError | [x] => Ok x | _ :: l => last_of l end.
(* builtin max(array): keeps the first largest; comparisons with NaN are false *)
Definition py_maxx (l : list xr) : res xr :=
  match l with [] => Err ValueError | x :: l => Ok (fold_left (fun m y => if xlt m y then y else m) l x) end.

(* radiance/functional.py:580-581  rows inside the band *)
Definition band (s : sensor) (atm : list arow) : res (list arow) :=
  let* lo := first_of (s_owl s) in
  let* hi := last_of (s_owl s) in
  Ok (filter (fun a => Rleb (a_wl a) hi) (filter (fun a => Rleb lo (a_wl a)) atm)).

(* radiance/functional.py:583-638  body of the loop over reflectances: the
   photoelectron count and the spectral rate *)
Definition pe_at (s : sensor) (atm : list arow) (int_time reflectance : R) : res (xr * list xr) :=
  let target_radiance := total_radiance atm reflectance 300 in
  let wl := map a_wl atm in
  let* opt_trans := sensor_opt_trans s wl in
  let* qe := sensor_qe s wl in
  let* other := sensor_other_irradiance s wl in
  let* (rate, _, weights) :=
    signal_rate wl target_radiance opt_trans (s_D s) (s_f s) (s_wx s) (s_wy s) qe other (s_dark s) in
  Ok (xmul (xmul rate (Fin int_time)) (Fin (s_ntdi s)), weights).

Fixpoint mapM {A B} (f : A -> res B) (l : list A) : res (list B) :=
  match l with
  | [] => Ok []
  | x :: l => let* y := f x in let* ys := mapM f l in Ok (y :: ys)
  end.

(* radiance/functional.py:640-649  after the loop: rescale, clip *)
Definition limit_to_well (max_n : R) (pe : list xr) : res (list xr) :=
  let* top := xmaxl pe in
  let sat := xdiv top (Fin max_n) in
  let pe := if xlt (Fin 1) sat then map (fun p => xdiv p sat) pe else pe in
  Ok (map (fun p => if xlt (Fin max_n) p then Fin max_n else p) pe).

(* radiance/functional.py:535-653  reflectance_to_photoelectrons; [target_temp]
   is the fourth argument *)
Definition reflectance_to_photoelectrons (atm : list arow) (s : sensor) (int_time target_temp : R)
    : res (list R * list xr * (list R * list xr)) :=
  let ref := linspace 0 1 100 in
  let* atm := band s atm in
  let* out := mapM (pe_at s atm int_time) ref in
  let weights := snd (last out (Fin 0, [])) in          (* left over from the last iteration *)
  let* pe := limit_to_well (s_max_n s) (map fst out) in
  let* top := py_maxx weights in
  Ok (ref, pe, (map a_wl atm, map (fun w => xdiv w top) weights)).
