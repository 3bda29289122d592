(** * Model_Met: src/pybsm/metrics/functional.py, function by function.

    The arguments of the image quality equations are numpy float64 values, as
    niirs and niirs5 pass them (with Python floats the divisions by zero would
    raise instead of giving inf or nan).  Plotting is not modelled. *)
From Coq Require Import Reals ZArith List Bool.
From Verif Require Import Base_XR Base_Np Model_Geo Model_Noise Model_Db Model_Scenario Model_Sensor Model_Rad
  Model_Otf Model_Img.
Import ListNotations.
Open Scope R_scope.

(* metrics/functional.py:49-75  giqe3 *)
Definition giqe3 (rer gsd eho ng snr : xr) : xr :=
  xsub (xsub (xadd (Fin 11.81) (xmul (Fin 3.32) (xlog10 (xdiv rer (xdiv gsd (Fin 0.0254))))))
             (xmul (Fin 1.48) eho))
       (xdiv ng snr).

(* metrics/functional.py:78-122  giqe4; niirs and gsd_gp *)
Definition giqe4 (rer gsd eho ng snr elev : xr) : xr * xr :=
  let (c_1, c_2) := if xle (Fin 0.9) rer then (3.32, 1.559) else (3.16, 2.817) in
  let gsd_gp := xdiv gsd (xpow (xsin elev) 0.5) in
  (xsub (xsub (xadd (xsub (Fin 10.251) (xmul (Fin c_1) (xlog10 (xdiv gsd_gp (Fin 0.0254)))))
                    (xmul (Fin c_2) (xlog10 rer)))
              (xmul (Fin 0.656) eho))
        (xdiv (xmul (Fin 0.334) ng) snr),
   gsd_gp).

(* metrics/functional.py:125-176  giqe5; niirs, gsd_w, rer *)
Definition giqe5 (rer_1 rer_2 gsd snr elev : xr) : xr * xr * xr :=
  let gsd_w := xdiv gsd (xpow (xsin elev) 0.25) in
  let rer := xpow (xmul (xmax rer_1 rer_2) (xsq (xmin rer_1 rer_2))) (1 / 3) in
  let lr := xlog10 rer in
  (xsub (xsub (xadd (xsub (Fin 9.57) (xmul (Fin 3.32) (xlog10 (xdiv gsd_w (Fin 0.0254)))))
                    (xmul (xmul (Fin 3.32) (xsub (Fin 1) (xexp (xdiv (Fin (-1.9)) snr)))) lr))
              (xmul (Fin 2) (xpown lr 4)))
        (xdiv (Fin 1.8) snr),
   gsd_w, rer).

(* metrics/functional.py:646-673  edge_response *)
Definition edge_response (pixel_pos : R) (mtf_slice : list R) (df ifov : R) : res xr :=
  let w := map (fun i => df * INR i + / 10 ^ 6) (seq 0 (length mtf_slice)) in
  let y := map2 (fun m w => xmul (xdiv (Fin m) (Fin w)) (Fin (sin (2 * PI * w * ifov * pixel_pos)))) mtf_slice w in
  let* t := trapz y (map Fin w) in
  Ok (xadd (Fin 0.5) (xmul (Fin (1 / PI)) t)).

(* metrics/functional.py:586-605  relative_edge_response *)
Definition relative_edge_response (mtf_slice : list R) (df ifov : R) : res xr :=
  let* a := edge_response 0.5 mtf_slice df ifov in
  let* b := edge_response (- 0.5) mtf_slice df ifov in
  Ok (xsub a b).

(* metrics/functional.py:608-643  edge_height_overshoot; the loop fills er *)
Definition eho_positions : list R := map (fun i => 1 + INR i * 0.25) (seq 0 9).
Definition edge_height_overshoot (mtf_slice : list R) (df ifov : R) : res xr :=
  let* er := mapM (fun dist => edge_response dist mtf_slice df ifov) eho_positions in
  if forallb (fun d => xlt (Fin 0) d) (xdiff er) then Ok (nth 1 er NaN)
  else xmaxl er.

(* metrics/functional.py:179-207  giqe5_RER *)
Definition giqe5_RER (mtf : img) (df ifov_x ifov_y : R) : res (xr * xr) :=
  let* u_slice := slice_otf mtf 0 in
  let* v_slice := slice_otf mtf (PI / 2) in
  let* rer_0 := relative_edge_response u_slice df ifov_x in
  let* rer_90 := relative_edge_response v_slice df ifov_y in
  Ok (rer_0, rer_90).

(* metrics/functional.py:210-242  giqe_edge_terms *)
Definition giqe_edge_terms (mtf : img) (df ifov_x ifov_y : R) : res (xr * xr) :=
  let* u_slice := slice_otf mtf 0 in
  let* v_slice := slice_otf mtf (PI / 2) in
  let* u_rer := relative_edge_response u_slice df ifov_x in
  let* v_rer := relative_edge_response v_slice df ifov_y in
  let rer := xsqrt (xmul u_rer v_rer) in
  let* u_eho := edge_height_overshoot u_slice df ifov_x in
  let* v_eho := edge_height_overshoot v_slice df ifov_y in
  let eho := xsqrt (xmul u_eho v_eho) in
  Ok (rer, eho).

(* metrics/functional.py:245-275  ground_resolved_distance.  np.interp without
   left/right returns the end values outside the table. *)
Definition ground_resolved_distance (mtf_slice : list R) (df : R) (snr : xr) (ifov slant_range : R) : res xr :=
  let w := map (fun i => df * INR i) (seq 0 (length mtf_slice)) in
  let xp := rev mtf_slice in
  let fp := rev w in
  let* u := np_interp (xdiv (Fin 3) snr) xp fp (nth 0 fp 0) (last fp 0) in
  let u_r := xadd u (Fin (/ 10 ^ 12)) in
  Ok (xmax (xmul (Fin slant_range) (xdiv (Fin 1) u_r)) (Fin (slant_range * (2 * ifov)))).

(** ** niirs (278-435) and niirs5 (438-583) *)
(* a value that must be finite for the rest of the model to apply *)
Definition finite (x : xr) : res R := match x with Fin r => Ok r | _ => Err NonFinite end.
Definition xabs (x : xr) : xr := match x with Fin r => Fin (Rabs r) | PInf | NInf => PInf | NaN => NaN end.

(* the loaded array as rows *)
Definition atm_rows (m : atm) : list arow :=
  map (fun i => {| a_wl := m i 0%nat; a_trans := m i 1%nat; a_path := m i 2%nat; a_surf := m i 3%nat;
                   a_scat := m i 4%nat; a_grnd := m i 5%nat |}) (seq 0 n_wave).
(* 302-308, 463-469  load, crop to the band *)
Definition load_band (ni it : loader) (s : sensor) (c : scen) (interp : bool) : res (list arow) :=
  let* m := (if interp then it else ni) (altitude c) (ground_range c) (ihaze c) in
  band s (atm_rows m).

(* attribute assignment on the caller's scenario *)
Definition set_plain (a : attr) (r : R) (c : scen) : scen :=
  {| ihaze := ihaze c; altitude := altitude c; ground_range := ground_range c; interp := interp c;
     plain := fun b => if attr_eqb a b then r else plain c b; cache := cache c |}.
(* 310-323, 471-484  bookkeeping; opt_trans_wavelengths is not empty here *)
Definition bookkeeping (s : sensor) (c : scen) : Z * scen :=
  if Rleb (2.9 / 10 ^ 6) (nth 0 (s_owl s) 0)
  then (1%Z, set_plain TargetTemperature 280 (set_plain TargetTemperature 282
              (set_plain BackgroundReflectance 0 (set_plain TargetReflectance 0 c))))
  else (0%Z, set_plain BackgroundReflectance 0.07 (set_plain TargetReflectance 0.15 c)).

(* 325-391, 486-552  contrast SNR, noise terms, spectral weights, frequencies *)
Record contrast := {
  ct_snr : snr_metrics; ct_path_noise : xr; ct_scene_noise : xr;
  ct_wl : list R; ct_w : list xr; ct_cutoff : R; ct_df : R; ct_pts : list (R * R) }.
Definition path_radiance (atm : list arow) : list xr := map (fun a => Fin (a_path a + a_scat a)) atm.
Definition photon_noise (s : sensor) (wl : list R) (m : snr_metrics) (irr : list xr) : res xr :=
  let* e := bmap2 xsub irr (m_other_irr m) in
  let* dn := photon_detection_rate e (s_wx s) (s_wy s) wl (m_qe m) in
  let* t := trapz dn (map Fin wl) in
  Ok (xsqrt (xmul (xmul t (m_int_time m)) (Fin (s_ntdi s)))).
(* boolean indexing: IndexError when the lengths differ *)
Definition positive_weights (wl : list R) (w : list xr) : res (list R * list xr) :=
  if Nat.eqb (length wl) (length w)
  then let p := filter (fun q => xlt (Fin 0) (snd q)) (combine wl w) in Ok (map fst p, map snd p)
  else Err IndexError.
(* np.linspace(a, b, 101) * cutoff, np.meshgrid *)
Definition freqs (a b cutoff : R) : list R := map (fun x => x * cutoff) (linspace a b 101).
Definition meshgrid (u v : list R) : list (R * R) := flat_map (fun y => map (fun x => (x, y)) u) v.
Definition contrast_part (s : sensor) (atm : list arow) (is_emissive : Z) : res contrast :=
  let (tgt, bkg) := giqe_radiance atm is_emissive in
  let wl := map a_wl atm in
  let* m := photon_detector_SNR s wl tgt bkg in
  let* tgt_noise := photon_noise s wl m (m_tgt_irr m) in
  let* bkg_noise := photon_noise s wl m (m_bkg_irr m) in
  let both := xmax tgt_noise bkg_noise in
  let* (scatter_rate, _, _) := signal_rate wl (path_radiance atm) (m_opt_trans m) (s_D s) (s_f s)
      (s_wx s) (s_wy s) (m_qe m) [Fin 0] 0 in
  let path_noise := xsqrt (xmul (xmul scatter_rate (m_int_time m)) (Fin (s_ntdi s))) in
  let scene_noise := xsqrt (xsub (xsq both) (xsq path_noise)) in
  let* (wl', w') := positive_weights wl (m_weights m) in
  let* lmin := py_min wl' in
  let* cutoff := finite (xdiv (Fin (s_D s)) (Fin lmin)) in
  let u := freqs (-1) 1 cutoff in
  let v := freqs 1 (-1) cutoff in
  Ok {| ct_snr := m; ct_path_noise := path_noise; ct_scene_noise := scene_noise;
        ct_wl := wl'; ct_w := w'; ct_cutoff := cutoff; ct_df := nth 1 u 0 - nth 0 u 0; ct_pts := meshgrid u v |}.

(* the modulation transfer function as a 101 x 101 picture *)
Definition mtf_image (o : otfs) : res img :=
  let* l := mapM (fun x => finite (xabs x)) (system_OTF o) in
  Ok {| rows := 101; cols := 101; px := fun i j => nth (i * 101 + j) l 0 |}.

Record niirs_metrics := {
  n_slant : R; n_contrast : contrast; n_otf : otfs;
  n_ifov_x : R; n_ifov_y : R; n_gsd_x : R; n_gsd_y : R; n_gsd_gm : xr;
  n_rer : xr; n_eho : xr; n_ng : xr; n_niirs : xr;
  n_elev : xr; n_niirs_4 : xr; n_gsd_gp : xr }.
(* 393-435 *)
Definition niirs_rest (diag : nat -> nat -> bool) (s : sensor) (c : scen) (ct : contrast) : res niirs_metrics :=
  let* slant_range := finite (curved_earth_slant_range 0 (altitude c) (ground_range c)) in
  let* int_time := finite (m_int_time (ct_snr ct)) in
  let* o := common_OTFs diag Np s c (ct_pts ct) (ct_wl ct) (ct_w ct) slant_range int_time in
  let* ifov_x := pydiv (s_px s) (s_f s) in
  let* ifov_y := pydiv (s_py s) (s_f s) in
  let gsd_x := ifov_x * slant_range in
  let gsd_y := ifov_y * slant_range in
  let gsd_gm := xsqrt (Fin (gsd_x * gsd_y)) in
  let* mtf := mtf_image o in
  let* (rer, eho) := giqe_edge_terms mtf (ct_df ct) ifov_x ifov_y in
  let* ng := noise_gain (concat (s_kernel s)) in
  let snr := xmul (xsqrt (Fin (s_frames s))) (m_snr (ct_snr ct)) in
  let* elev := elev_angle (altitude c) slant_range in
  let (niirs_4, gsd_gp) := giqe4 rer gsd_gm eho ng snr elev in
  Ok {| n_slant := slant_range; n_contrast := ct; n_otf := o; n_ifov_x := ifov_x; n_ifov_y := ifov_y;
        n_gsd_x := gsd_x; n_gsd_y := gsd_y; n_gsd_gm := gsd_gm; n_rer := rer; n_eho := eho; n_ng := ng;
        n_niirs := giqe3 rer gsd_gm eho ng snr; n_elev := elev; n_niirs_4 := niirs_4; n_gsd_gp := gsd_gp |}.
(* 278-435; the scenario afterwards and the result.  An exception leaves the
   bookkeeping done so far. *)
Definition niirs (ni it : loader) (diag : nat -> nat -> bool) (s : sensor) (c : scen) (interp : bool)
    : scen * res niirs_metrics :=
  match load_band ni it s c interp with
  | Err e => (c, Err e)
  | Ok atm =>
      let (is_emissive, c') := bookkeeping s c in
      (c', let* ct := contrast_part s atm is_emissive in niirs_rest diag s c' ct)
  end.

(* 554  sensor.filter_kernel = np.array([1]) *)
Definition no_sharpening (s : sensor) : sensor :=
  {| s_D := s_D s; s_f := s_f s; s_px := s_px s; s_py := s_py s; s_wx := s_wx s; s_wy := s_wy s; s_eta := s_eta s;
     s_owl := s_owl s; s_otr := s_otr s; s_qwl := s_qwl s; s_qe := s_qe s;
     s_int_time := s_int_time s; s_dark := s_dark s; s_other_irr := s_other_irr s; s_read := s_read s;
     s_max_n := s_max_n s; s_max_fill := s_max_fill s; s_bits := s_bits s; s_ntdi := s_ntdi s;
     s_T_shield := s_T_shield s; s_T_opt := s_T_opt s; s_e_opt := s_e_opt s; s_t_filt := s_t_filt s;
     s_T_filt := s_T_filt s; s_e_filt := s_e_filt s; s_sx := s_sx s; s_sy := s_sy s; s_dax := s_dax s; s_day := s_day s;
     s_pv := s_pv s; s_pv_wl := s_pv_wl s; s_Lx := s_Lx s; s_Ly := s_Ly s; s_other_noise := s_other_noise s;
     s_kernel := [[1]]; s_frames := s_frames s |}.
Record niirs5_metrics := {
  f_slant : R; f_contrast : contrast; f_otf : otfs; f_ifov_x : R; f_ifov_y : R; f_gsd_x : R;
  f_rer_0 : xr; f_rer_90 : xr; f_elev : xr; f_niirs : xr; f_gsd_w : xr; f_rer : xr }.
(* 555-583 *)
Definition niirs5_rest (diag : nat -> nat -> bool) (s : sensor) (c : scen) (ct : contrast) : res niirs5_metrics :=
  let* slant_range := finite (curved_earth_slant_range 0 (altitude c) (ground_range c)) in
  let* int_time := finite (m_int_time (ct_snr ct)) in
  let* o := common_OTFs diag Np s c (ct_pts ct) (ct_wl ct) (ct_w ct) slant_range int_time in
  let* ifov_x := pydiv (s_px s) (s_f s) in
  let* ifov_y := pydiv (s_py s) (s_f s) in
  let gsd_x := ifov_x * slant_range in
  let* mtf := mtf_image o in
  let* (rer_0, rer_90) := giqe5_RER mtf (ct_df ct) ifov_x ifov_y in
  let* elev := elev_angle (altitude c) slant_range in
  let '(n, gsd_w, rer) := giqe5 rer_0 rer_90 (Fin gsd_x) (xmul (xsqrt (Fin (s_frames s))) (m_snr (ct_snr ct))) elev in
  Ok {| f_slant := slant_range; f_contrast := ct; f_otf := o; f_ifov_x := ifov_x; f_ifov_y := ifov_y; f_gsd_x := gsd_x;
        f_rer_0 := rer_0; f_rer_90 := rer_90; f_elev := elev; f_niirs := n; f_gsd_w := gsd_w; f_rer := rer |}.
(* 438-583; sensor and scenario afterwards and the result *)
Definition niirs5 (ni it : loader) (diag : nat -> nat -> bool) (s : sensor) (c : scen) (interp : bool)
    : sensor * scen * res niirs5_metrics :=
  match load_band ni it s c interp with
  | Err e => (s, c, Err e)
  | Ok atm =>
      let (is_emissive, c') := bookkeeping s c in
      match contrast_part s atm is_emissive with
      | Err e => (s, c', Err e)
      | Ok ct => let s' := no_sharpening s in (s', c', niirs5_rest diag s' c' ct)
      end
  end.
