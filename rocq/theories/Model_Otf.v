(** * Model_Otf: src/pybsm/otf/functional.py lines 110-900 and 972-1158,
    1299-1419, function by function.

    The transfer functions are elementwise in the frequency arrays, so they are
    written for one grid point (u, v) with finite coordinates.  Python float
    parameters are reals; a parameter that callers supply as a numpy float64 is
    an extended real.  [skind] (Model_Geo) says whether a wavelength or
    coherence diameter is a Python float (division raises) or a numpy float64
    (as inside weighted_by_wavelength).  All references below are to
    src/pybsm/otf/functional.py. *)
From Coq Require Import Reals ZArith List Bool.
From Flocq Require Import Core.Raux.
From Coquelicot Require Import Coquelicot.
From Verif Require Import Base_XR Base_Np Model_Geo Model_Scenario Model_Sensor.
Import ListNotations.
Open Scope R_scope.

(* division of a number by a scalar of kind k *)
Definition kdiv (k : skind) (a b : xr) : res xr :=
  match k, b with
  | Py, Fin r => if Reqb r 0 then Err ZeroDivisionError else Ok (xdiv a b)
  | _, _ => Ok (xdiv a b)
  end.

(* np.sqrt(u**2.0 + v**2.0), first line of most functions *)
Definition radial (u v : R) : xr := xsqrt (Fin (u * u + v * v)).

(* 110-182  circular_aperture_OTF *)
Definition circular_aperture_OTF (k : skind) (u v lambda0 D eta : R) : res xr :=
  let rho := radial u v in
  let* r0 := kdiv k (Fin D) (Fin lambda0) in
  let x := xdiv rho r0 in
  let a := xmul (Fin (2 / PI))
             (xsub (xacos x) (xmul x (xsqrt (xsub (Fin 1) (xsq x))))) in
  let a := xnan_to_num a in
  let y := xdiv (xdiv rho (Fin eta)) r0 in
  let b := xmul (Fin (2 * (eta * eta) / PI))
             (xsub (xacos y) (xmul y (xsqrt (xsub (Fin 1) (xsq y))))) in
  let b := xnan_to_num b in
  let c_1 := xmul (Fin (-2 * (eta * eta)))
               (b2x (xlt rho (xdiv (xmul (Fin (1 - eta)) r0) (Fin 2)))) in
  let phi := xacos (xdiv (xdiv (xsub (Fin (1 + eta * eta)) (xsq (xdiv (xmul (Fin 2) rho) r0)))
                               (Fin 2)) (Fin eta)) in
  let c_2 := xsub (xadd (xdiv (xmul (Fin (2 * eta)) (xsin phi)) (Fin PI))
                        (xdiv (xmul (Fin (1 + eta * eta)) phi) (Fin PI)))
                  (Fin (2 * (eta * eta))) in
  let c_2 := xsub c_2
               (xmul (Fin (2 * (1 - eta * eta) / PI))
                  (xatan (xdiv (xmul (Fin (1 + eta)) (xtan (xdiv phi (Fin 2))))
                               (Fin (1 - eta))))) in
  let c_2 := xnan_to_num c_2 in
  let c_2 := xmul c_2 (b2x (xle rho (xdiv (xmul (Fin (1 + eta)) r0) (Fin 2)))) in
  if Rltb 0 eta
  then Ok (xdiv (xadd (xadd (xadd a b) c_1) c_2) (Fin (1 - eta * eta)))
  else Ok a.

(* scipy.special.jn(n, x) by Bessel's integral (library contract); the value at
   an infinite argument is never used for finite arguments *)
Definition bessel (n : nat) (x : R) : R :=
  / PI * RInt (fun t => cos (INR n * t - x * sin t)) 0 PI.
Definition xjn (n : nat) (x : xr) : xr :=
  match x with Fin r => Fin (bessel n r) | PInf | NInf => Fin 0 | NaN => NaN end.

(* 185-255  circular_aperture_OTF_with_defocus.  The parentheses
   sin(2*beta*(J1-J3)) etc. are those of the source. *)
Definition circular_aperture_OTF_with_defocus (k : skind) (u v wavelength D f defocus : R)
  : res xr :=
  let rho := radial u v in
  let* r0 := kdiv k (Fin D) (Fin wavelength) in
  let s := xdiv (xmul (Fin 2) rho) r0 in
  let* fD := pydiv f D in
  let* q := pydiv (1 / 2) (1 + 4 * (fD * fD)) in
  let w20 := q * defocus in
  let* p := kdiv k (Fin (4 * PI)) (Fin wavelength) in
  let alpha := xmul (xmul p (Fin w20)) s in
  let beta := xacos (xmul (Fin (1 / 2)) s) in
  let J n := xjn n alpha in
  let dJ m n := xsub (J m) (J n) in
  let sn c m n := xsin (xmul (xmul (Fin c) beta) (dJ m n)) in
  let defocus_otf :=
    if negb (Reqb defocus 0) then
      let c := xdiv (Fin 2) (xmul (Fin PI) alpha) in
      let h := xmul (xmul alpha (Fin (1 / 2))) s in
      let first :=
        xmul (xmul c (xcos h))
          (xadd (xsub (xadd (xmul beta (J 1%nat))
                            (xmul (Fin (1 / 2)) (sn 2 1%nat 3%nat)))
                      (xmul (Fin (1 / 4)) (sn 4 3%nat 5%nat)))
                (xmul (Fin (1 / 6)) (sn 6 5%nat 7%nat))) in
      let second :=
        xmul (xmul c (xsin h))
          (xsub (xadd (xsub (xsin (xmul beta (dJ 0%nat 2%nat)))
                            (xmul (Fin (1 / 3)) (sn 3 2%nat 4%nat)))
                      (xmul (Fin (1 / 5)) (sn 5 4%nat 6%nat)))
                (xmul (Fin (1 / 7)) (sn 7 6%nat 8%nat))) in
      let d := xsub first second in
      if xeq rho (Fin 0) then Fin 1 else d
    else
      xmul (Fin (1 / PI)) (xsub (xmul (Fin 2) beta) (xsin (xmul (Fin 2) beta))) in
  Ok (xnan_to_num defocus_otf).

(* 258-312  cte_OTF *)
Definition cte_OTF_xy (n : R) (pu : xr) (phases_n cte_eff f : R) : xr :=
  xexp (xmul (Fin (-1 * phases_n * n * (1 - cte_eff)))
             (xsub (Fin 1) (xcos (xdiv (xmul (Fin (2 * PI)) pu) (Fin f))))).
Definition cte_OTF (u v p_x p_y cte_n_x cte_n_y phases_n cte_eff f : R) : xr :=
  xmul (cte_OTF_xy cte_n_x (Fin (p_x * u)) phases_n cte_eff f)
       (cte_OTF_xy cte_n_y (Fin (p_y * v)) phases_n cte_eff f).

(* 315-342  defocus_OTF (its argument D is not used) *)
Definition defocus_OTF (u v D w_x w_y : R) : xr :=
  xexp (Fin (- (PI * PI) / 4 * (w_x * w_x * (u * u) + w_y * w_y * (v * v)))).

(* 345-371  detector_OTF *)
Definition detector_OTF (u v w_x w_y f : R) : xr :=
  xmul (xsinc (xdiv (Fin (w_x * u)) (Fin f))) (xsinc (xdiv (Fin (w_y * v)) (Fin f))).

(* 374-425  detector_OTF_with_aggregation, n >= 0 (range of a negative number
   is empty as well) *)
Definition agg_phase (n i : nat) (p x f : R) : xr :=
  xmul (Fin (2 * PI))
    (xsub (xdiv (Fin (INR i * p * x)) (Fin f))
          (xdiv (xdiv (Fin ((INR n - 1) * p * x)) (Fin 2)) (Fin f))).
Definition agg_sum (n : nat) (p x f : R) : xr :=
  fold_left (fun acc i => xadd acc (xcos (agg_phase n i p x f))) (seq 0 n) (Fin 0).
Definition detector_OTF_with_aggregation (u v w_x w_y p_x p_y f : R) (n : nat) : res xr :=
  (* for n = 0 the sums are still Python floats: 0.0*0.0/0 raises *)
  let* q := kdiv (match n with O => Py | _ => Np end)
              (xmul (agg_sum n p_x u f) (agg_sum n p_y v f)) (Fin (INR n * INR n)) in
  Ok (xmul (xmul q (xsinc (xdiv (Fin (w_x * u)) (Fin f))))
           (xsinc (xdiv (Fin (w_y * v)) (Fin f)))).

(* 428-467  diffusion_OTF; alpha (array) is taken at one grid point *)
Definition diffusion_OTF_params (al : xr) (alpha ald : R) : xr :=
  xsub (Fin 1) (xdiv (xexp (Fin (- alpha * ald))) (xadd (Fin 1) (xmul (Fin alpha) al))).
Definition diffusion_OTF (u v alpha ald al0 f : R) : res xr :=
  let rho := radial u v in
  let* q := pydiv 1 (al0 * al0) in
  let al_rho := xsqrt (xdiv (Fin 1)
                  (xadd (Fin q) (xsq (xdiv (xmul (Fin (2 * PI)) rho) (Fin f))))) in
  Ok (xdiv (diffusion_OTF_params al_rho alpha ald)
           (diffusion_OTF_params (Fin al0) alpha ald)).

(* 470-493  drift_OTF *)
Definition drift_OTF (u v a_x a_y : R) : xr :=
  xmul (xsinc (Fin (a_x * u))) (xsinc (Fin (a_y * v))).

(* 552-585  gaussian_OTF *)
Definition gaussian_OTF (u v blur_size_x blur_size_y : R) : res xr :=
  let* fcX := pydiv 1 blur_size_x in
  let* fcY := pydiv 1 blur_size_y in
  Ok (xexp (xmul (Fin (- PI)) (xadd (xsq (xdiv (Fin u) (Fin fcX))) (xsq (xdiv (Fin v) (Fin fcY)))))).

(* 588-616  jitter_OTF *)
Definition jitter_OTF (u v s_x s_y : R) : xr :=
  xexp (Fin (-2 * (PI * PI) * (s_x * s_x * (u * u) + s_y * s_y * (v * v)))).

(* 700-734  tdi_OTF: complex result as (real, imaginary); np.arange(0, x) has
   ceil(x) entries *)
Definition tdi_steps (n_tdi phases_n : R) : nat := Z.to_nat (Zceil (n_tdi * phases_n)).
Definition tdi_phase (xx : xr) (beta : R) (i : nat) : xr :=
  xmul (xmul (xmul (Fin (-2 * PI)) xx) (Fin (beta - 1))) (Fin (INR i)).
Definition tdi_OTF (u_or_v w n_tdi phases_n beta f : R) : xr * xr :=
  let xx := xdiv (Fin (w * u_or_v)) (Fin (f * beta)) in
  let iind := seq 0 (tdi_steps n_tdi phases_n) in
  let re := fold_left (fun acc i => xadd acc (xcos (tdi_phase xx beta i))) iind (Fin 0) in
  let im := fold_left (fun acc i => xadd acc (xsin (tdi_phase xx beta i))) iind (Fin 0) in
  let n := Fin (n_tdi * phases_n) in
  (xdiv (xmul (xsinc xx) re) n, xdiv (xmul (xsinc xx) im) n).

(* 737-774  turbulence_OTF *)
Definition turbulence_OTF (u v lambda0 D : R) (r0 : xr) (alpha : R) : xr :=
  let rho := radial u v in
  let lr := xmul (Fin lambda0) rho in
  xexp (xmul (xmul (Fin (-3.44)) (xpow (xdiv lr r0) (5 / 3)))
             (xsub (Fin 1) (xmul (Fin alpha) (xpow (xdiv lr (Fin D)) (1 / 3))))).

(* 777-821  wavefront_OTF *)
Definition wavefront_OTF (u v lambda0 : R) (pv : xr) (L_x L_y : R) : xr :=
  let auto_c := xexp (xmul (Fin (- (lambda0 * lambda0)))
                  (xadd (xsq (xdiv (Fin u) (Fin L_x))) (xsq (xdiv (Fin v) (Fin L_y))))) in
  xexp (xmul (xopp pv) (xsub (Fin 1) auto_c)).

(* 824-856  wavefront_OTF_2 *)
Definition wavefront_OTF_2 (u v cutoff w_rms : R) : xr :=
  let v := xdiv (radial u v) (Fin cutoff) in
  xsub (Fin 1) (xmul (Fin ((w_rms / 0.18) * (w_rms / 0.18)))
     (xsub (Fin 1) (xmul (Fin 4) (xsq (xsub v (Fin 0.5)))))).

(* 859-900  wind_speed_turbulence_OTF *)
Definition wind_speed_turbulence_OTF (k : skind) (u v lambda0 D : R) (r0 : xr) (t_d vel : R)
  : res xr :=
  let* e := kdiv k (Fin (- vel * t_d)) r0 in
  let weight := xexp e in
  Ok (xadd (xmul weight (turbulence_OTF u v lambda0 D r0 0.5))
           (xmul (xsub (Fin 1) weight) (turbulence_OTF u v lambda0 D r0 0))).

(* 972-1005  weighted_by_wavelength.  [my_function] returns the entries along
   the last axis of its array (a scalar is a one-entry list); the boolean index
   raises IndexError when the arrays have different lengths; the product with
   the selected weights broadcasts along the last axis. *)
Definition select (wl : list R) (w : list xr) (x : R) : res (list xr) :=
  if Nat.eqb (length wl) (length w)
  then Ok (map snd (filter (fun p => Reqb (fst p) x) (combine wl w)))
  else Err IndexError.
Fixpoint weighted_loop (all : list R) (w : list xr) (g : R -> res (list xr))
    (todo : list R) (acc : list xr) : res (list xr) :=
  match todo with
  | [] => Ok acc
  | wii :: todo =>
      let* ws := select all w wii in
      let* gi := g wii in
      let* t := bmap2 xmul ws gi in
      let* acc := bmap2 xadd acc t in
      weighted_loop all w g todo acc
  end.
Definition weighted_by_wavelength (wl : list R) (w : list xr) (g : R -> res (list xr))
  : res (list xr) :=
  let s := xsum w in
  let w := map (fun x => xdiv x s) w in
  match w, wl with
  | w0 :: _, l0 :: rest =>
      let* g0 := g l0 in
      weighted_loop wl w g rest (map (xmul w0) g0)
  | _, _ => Err IndexError
  end.

(* 1008-1050  coherence_diameter; lambda0 is a Python float *)
Definition coherence_diameter (lambda0 : R) (z_path cn2 : list xr) : res xr :=
  let* zm := xmaxl z_path in
  let* p := bmap2 xmul cn2 (map (fun z => xpow (xdiv z zm) (5 / 3)) z_path) in
  let* sp_integral := trapz p z_path in
  let* q := pydiv (2 * PI) lambda0 in
  Ok (xpow (xmul (xmul sp_integral (Fin 0.423)) (Fin (q * q))) (- (3 / 5))).

(* 1053-1086  hufnagel_valley_turbulence_profile, one height *)
Definition hufnagel_valley_turbulence_profile (h : xr) (v cn2_at_1m : R) : xr :=
  xadd (xadd (xmul (xmul (Fin (5.94 / 10 ^ 53 * ((v / 27) * (v / 27)))) (xpown h 10))
                   (xexp (xdiv (xopp h) (Fin 1000))))
             (xmul (Fin (2.7 / 10 ^ 16)) (xexp (xdiv (xopp h) (Fin 1500)))))
       (xmul (Fin cn2_at_1m) (xexp (xdiv (xopp h) (Fin 100)))).

(* 619-697  polychromatic_turbulence_OTF on a row of grid points; returns
   (OTF row, r0_band) *)
Definition r0_function (r0_at_1um : xr) (wav : R) : xr :=
  xmul (xmul r0_at_1um (xpow (Fin wav) (6 / 5))) (Fin (Rpower (1 / 10 ^ 6) (- (6 / 5)))).
Definition traverse {A B} (f : A -> res B) : list A -> res (list B) :=
  fix go l := match l with
              | [] => Ok []
              | x :: l => let* y := f x in let* r := go l in Ok (y :: r) end.
Definition polychromatic_turbulence_OTF (k : skind) (pts : list (R * R)) (wl : list R)
    (w : list xr) (altitude slant_range D ha_wind_speed cn2_at_1m int_time aircraft_speed : R)
  : res (list xr * list xr) :=
  let* (z_path, h_path) := altitude_along_slant_path k 0 altitude slant_range in
  let cn2 := map (fun h => hufnagel_valley_turbulence_profile h ha_wind_speed cn2_at_1m) h_path in
  let* r0_at_1um := coherence_diameter (1 / 10 ^ 6) z_path cn2 in
  let* r0_band := weighted_by_wavelength wl w (fun l => Ok [r0_function r0_at_1um l]) in
  let turb l := traverse (fun p =>
      wind_speed_turbulence_OTF Np (fst p) (snd p) l D (r0_function r0_at_1um l)
        int_time aircraft_speed) pts in
  let* otf := weighted_by_wavelength wl w turb in
  Ok (otf, r0_band).

(* 1089-1112  object_domain_defocus_radii *)
Definition object_domain_defocus_radii (D R0 R1 : R) : res R :=
  let* a := pydiv 1 R0 in
  let* b := pydiv 1 R1 in
  Ok (0.62 * D * (a - b)).
(* 99, 1115-1136  dark_current_from_density *)
Definition qc : R := 1.60217662 / 10 ^ 19.
Definition dark_current_from_density (jd w_x w_y : R) : R := jd * w_x * w_y / qc.
(* 1139-1158  image_domain_defocus_radii *)
Definition image_domain_defocus_radii (D dz f : R) : res R :=
  pydiv (0.62 * D * dz) (f * f).

(** ** filter_OTF (496-549) *)
Definition n_filt : nat := 100.
(* kernel entry, zero outside: np.fft.fft2(kernel, [n, n]) pads or crops *)
Definition kget (kernel : list (list R)) (a b : nat) : R := nth b (nth a kernel []) 0.
(* |fft2| at integer frequencies (j, k) (library contract) *)
Definition dft_re (kernel : list (list R)) (j k : nat) : R :=
  Rsum (map (fun a => Rsum (map (fun b =>
     kget kernel a b * cos (2 * PI * (INR (j * a) + INR (k * b)) / INR n_filt))
     (seq 0 n_filt))) (seq 0 n_filt)).
Definition dft_im (kernel : list (list R)) (j k : nat) : R :=
  Rsum (map (fun a => Rsum (map (fun b =>
     - (kget kernel a b * sin (2 * PI * (INR (j * a) + INR (k * b)) / INR n_filt)))
     (seq 0 n_filt))) (seq 0 n_filt)).
(* np.abs(np.fft.fftshift(...))[i][j] *)
Definition xfer (kernel : list (list R)) (i j : nat) : R :=
  let j' := Nat.modulo (i + n_filt / 2) n_filt in
  let k' := Nat.modulo (j + n_filt / 2) n_filt in
  sqrt (dft_re kernel j' k' * dft_re kernel j' k' + dft_im kernel j' k' * dft_im kernel j' k').
(* x % m for floats (sign of the modulus) *)
Definition pymod (x m : R) : R := x - m * IZR (Zfloor (x / m)).
Definition wrap_val (value nyquist : R) : R := pymod (value + nyquist) (2 * nyquist) - nyquist.
(* interpolate.griddata(linear) on the rectangular grid u_rng (rising) x v_rng
   (falling): in grid cell (row i, column j) the triangulation uses one of the
   two diagonals; [diag i j] says which (oracle).  s, t in [0,1] are the cell
   coordinates along columns and rows. *)
Definition tri (d : bool) (f00 f01 f10 f11 s t : R) : R :=
  if d then
    if Rleb t s then f00 + s * (f01 - f00) + t * (f11 - f01)
    else f00 + t * (f10 - f00) + s * (f11 - f10)
  else
    if Rleb (s + t) 1 then f00 + s * (f01 - f00) + t * (f10 - f00)
    else f11 + (1 - s) * (f10 - f11) + (1 - t) * (f01 - f11).
Definition cell (x : R) : nat := Nat.min (n_filt - 2) (Z.to_nat (Zfloor x)).
Definition filter_OTF (diag : nat -> nat -> bool) (u v : R) (kernel : list (list R)) (ifov : R)
  : res xr :=
  let* nyquist := pydiv 0.5 ifov in
  let x := (wrap_val u nyquist + nyquist) / (2 * nyquist) * INR (n_filt - 1) in
  let y := (nyquist - wrap_val v nyquist) / (2 * nyquist) * INR (n_filt - 1) in
  let j := cell x in
  let i := cell y in
  Ok (Fin (tri (diag i j) (xfer kernel i j) (xfer kernel i (j + 1))
               (xfer kernel (i + 1) j) (xfer kernel (i + 1) (j + 1))
               (x - INR j) (y - INR i))).

(** ** common_OTFs (1299-1419), on one row of grid points *)
(* otf/otf.py:20-34 *)
Record otfs := {
  ap_OTF : list xr; turb_OTF : list xr; r0_band : list xr; det_OTF : list xr;
  jit_OTF : list xr; drft_OTF : list xr; wav_OTF : list xr; filt_OTF : list xr;
  system_OTF : list xr }.
Definition on_grid (pts : list (R * R)) (g : R -> R -> xr) : list xr :=
  map (fun p => g (fst p) (snd p)) pts.
Definition on_grid_res (pts : list (R * R)) (g : R -> R -> res xr) : res (list xr) :=
  traverse (fun p => g (fst p) (snd p)) pts.
Definition common_OTFs (diag : nat -> nat -> bool) (k : skind) (s : sensor) (c : scen)
    (pts : list (R * R)) (wl : list R) (w : list xr) (slant_range int_time : R) : res otfs :=
  let* ap := weighted_by_wavelength wl w (fun l =>
     on_grid_res pts (fun u v => circular_aperture_OTF Np u v l (s_D s) (s_eta s))) in
  let* (turb, r0b) :=
    if Rltb 0 (plain c Cn2At1m)
    then polychromatic_turbulence_OTF k pts wl w (altitude c) slant_range (s_D s)
           (plain c HaWindSpeed) (plain c Cn2At1m) (int_time * s_ntdi s) (plain c AircraftSpeed)
    else Ok (map (fun _ => Fin 1) pts, map (fun _ => Fin 1000000) pts) in
  let det := on_grid pts (fun u v => detector_OTF u v (s_wx s) (s_wy s) (s_f s)) in
  let jit := on_grid pts (fun u v => jitter_OTF u v (s_sx s) (s_sy s)) in
  let drft := on_grid pts (fun u v =>
     drift_OTF u v (s_dax s * int_time * s_ntdi s) (s_day s * int_time * s_ntdi s)) in
  let* wav := weighted_by_wavelength wl w (fun l => Ok (on_grid pts (fun u v =>
     wavefront_OTF u v l (xmul (Fin (s_pv s)) (xsq (xdiv (Fin (s_pv_wl s)) (Fin l))))
       (s_Lx s) (s_Ly s)))) in
  let* filt :=
    if Nat.ltb 1 (length (s_kernel s))
    then let* ifov := pydiv (s_px s) (s_f s) in
         on_grid_res pts (fun u v => filter_OTF diag u v (s_kernel s) ifov)
    else Ok (map (fun _ => Fin 1) pts) in
  let* m := bmap2 xmul ap turb in
  let* m := bmap2 xmul m det in
  let* m := bmap2 xmul m jit in
  let* m := bmap2 xmul m drft in
  let* m := bmap2 xmul m wav in
  let* m := bmap2 xmul m filt in
  Ok {| ap_OTF := ap; turb_OTF := turb; r0_band := r0b; det_OTF := det; jit_OTF := jit;
        drft_OTF := drft; wav_OTF := wav; filt_OTF := filt; system_OTF := m |}.
