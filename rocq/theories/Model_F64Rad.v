(** * Model_F64Rad: from the atmosphere to the photoelectron rate in binary64 (radiance/functional.py).
    np.exp, the power and the order in which np.sum adds are parameters; the rest is computed with
    the roundings of the hardware.  The exact-arithmetic model is in Model_Rad. *)
From Coq Require Import List ZArith Floats.
From Verif Require Import Base_XR Base_Np Model_F64Aperture.
Import ListNotations.
Open Scope float_scope.

(* radiance/functional.py:51-53 *)
Definition hc_f64 : float := 6.62607004e-34.
Definition cc_f64 : float := 299792458.
Definition kc_f64 : float := 1.38064852e-23.

(* radiance/functional.py:98-122  blackbody_radiance, one wavelength
     Lbb = (2.0*hc*cc**2.0 / lambda0**5.0) * (np.exp(hc*cc / (lambda0*kc*T)) - 1.0) ** (-1.0) *)
Definition blackbody_f64 (fexp : float -> float) (fpow : float -> float -> float) (lambda0 T : float) : float :=
  (2 * hc_f64 * fpow cc_f64 2 / fpow lambda0 5) * fpow (fexp (hc_f64 * cc_f64 / (lambda0 * kc_f64 * T)) - 1) (-1).

(* one row of an atmosphere array (utils.py:43-62): wavelength, transmission, path thermal, solar
   scattering, ground reflected; the surface emission is not used *)
Record arow_f64 := { f_wl : float; f_trans : float; f_path : float; f_scat : float; f_grnd : float }.

(* radiance/functional.py:743-777  total_radiance, one row *)
Definition db_reflectance_f64 : float := 0.15.
Definition total_radiance_f64 (fexp : float -> float) (fpow : float -> float -> float) (reflectance T : float) (a : arow_f64) : float :=
  f_path a + (1 - reflectance) * blackbody_f64 fexp fpow (f_wl a) T * f_trans a + f_scat a
    + f_grnd a * (reflectance / db_reflectance_f64).

(* radiance/functional.py:57-95  at_focal_plane_irradiance; f, D are Python floats *)
Definition focal_plane_f64 (fpow : float -> float -> float) (D f : float) (L : list float) : res (list float) :=
  if D =? 0 then Err ZeroDivisionError else
  Ok (map (fun l => l * pi_f64 / (1 + 4 * fpow (f / D) 2)) L).

(* radiance/functional.py:334-373  photon_detection_rate *)
Definition detection_rate_f64 (E : list float) (w_x w_y : float) (wl qe : list float) : res (list float) :=
  let* a := bmap2 (fun l q => l / (hc_f64 * cc_f64) * q) wl qe in
  bmap2 (fun x e => x * w_x * w_y * e) a E.

(* np.trapz(y, x): (np.diff(x) * (y[1:] + y[:-1]) / 2.0).sum() *)
Definition diff_f64 (l : list float) : list float := map2 (fun b a => b - a) (tl l) l.
Definition pairs_f64 (l : list float) : list float := map2 (fun b a => b + a) (tl l) l.
Definition trapz_f64 (fsum : list float -> float) (y x : list float) : res float :=
  let* p := bmap2 (fun d s => d * s / 2) (diff_f64 x) (pairs_f64 y) in
  Ok (fsum p).

(* radiance/functional.py:656-740  signal_rate, the first returned value *)
Definition signal_rate_f64 (fpow : float -> float -> float) (fsum : list float -> float) (wl target_radiance opt_trans : list float)
    (D f w_x w_y : float) (qe other_irradiance : list float) (dark_current : float) : res float :=
  let* e0 := focal_plane_f64 fpow D f target_radiance in
  let* e1 := bmap2 mul opt_trans e0 in
  let* tgt_FPA_irradiance := bmap2 add e1 other_irradiance in
  let* tgt_dN := detection_rate_f64 tgt_FPA_irradiance w_x w_y wl qe in
  let* integral := trapz_f64 fsum tgt_dN wl in
  Ok (integral + dark_current).
