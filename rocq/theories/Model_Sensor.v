(** * Model_Sensor: the classes Sensor (src/pybsm/simulation/sensor.py) and
    RefImage (src/pybsm/simulation/ref_image.py). *)
From Coq Require Import Reals ZArith List Bool.
From Verif Require Import Base_XR Base_Np Model_Scenario.
Import ListNotations.
Open Scope R_scope.

(* sensor.py:17-136  attributes.  All numbers are Python floats (ints are
   embedded); the name is dropped. *)
Record sensor := {
  s_D : R; s_f : R; s_px : R; s_py : R; s_wx : R; s_wy : R; s_eta : R;
  s_owl : list R; s_otr : list R;               (* opt_trans_wavelengths, optics_transmission *)
  s_qwl : list R; s_qe : list R;                (* qe_wavelengths, qe *)
  s_int_time : R; s_dark : R; s_other_irr : R; s_read : R; s_max_n : R;
  s_max_fill : R; s_bits : R; s_ntdi : R;
  s_T_shield : R; s_T_opt : R; s_e_opt : R; s_t_filt : R; s_T_filt : R; s_e_filt : R;
  s_sx : R; s_sy : R; s_dax : R; s_day : R; s_pv : R; s_pv_wl : R;
  s_Lx : R; s_Ly : R; s_other_noise : list R; s_kernel : list (list R); s_frames : R }.

(* sensor.py:147-170  keyword arguments that are only stored *)
Record sensor_kw := {
  k_int_time : R; k_dark : R; k_other_irr : R; k_read : R; k_max_n : R;
  k_max_fill : R; k_bits : R; k_ntdi : R;
  k_T_shield : R; k_T_opt : R; k_e_opt : R; k_t_filt : R; k_T_filt : R; k_e_filt : R;
  k_sx : R; k_sy : R; k_dax : R; k_day : R; k_pv : R; k_pv_wl : R }.
Definition default_kw : sensor_kw := {|
  k_int_time := 1; k_dark := 0; k_other_irr := 0; k_read := 0; k_max_n := 100000000;
  k_max_fill := 1; k_bits := 100; k_ntdi := 1;
  k_T_shield := 70; k_T_opt := 270; k_e_opt := 0; k_t_filt := 1; k_T_filt := 70; k_e_filt := 0;
  k_sx := 0; k_sy := 0; k_dax := 0; k_day := 0; k_pv := 0; k_pv_wl := 0.633 / 10 ^ 6 |}.

(* sensor.py:139-232  __init__; [None] = argument omitted *)
Definition sensor_init (D f p_x : R) (wl : list R) (eta : R) (p_y w_x w_y : option R)
    (kw : sensor_kw) : res sensor :=
  let py := match p_y with None => p_x | Some v => v end in
  let wx := match w_x with None => p_x | Some v => v end in
  let* wy := match w_y with
             | None => let* q := pydiv p_x wx in Ok (q * py)
             | Some v => Ok v end in
  Ok {| s_D := D; s_f := f; s_px := p_x; s_py := py; s_wx := wx; s_wy := wy; s_eta := eta;
        s_owl := wl; s_otr := repeat 1 (length wl);
        s_qwl := wl; s_qe := repeat 1 (length wl);
        s_int_time := k_int_time kw; s_dark := k_dark kw; s_other_irr := k_other_irr kw;
        s_read := k_read kw; s_max_n := k_max_n kw; s_max_fill := k_max_fill kw;
        s_bits := k_bits kw; s_ntdi := k_ntdi kw;
        s_T_shield := k_T_shield kw; s_T_opt := k_T_opt kw; s_e_opt := k_e_opt kw;
        s_t_filt := k_t_filt kw; s_T_filt := k_T_filt kw; s_e_filt := k_e_filt kw;
        s_sx := k_sx kw; s_sy := k_sy kw; s_dax := k_dax kw; s_day := k_day kw;
        s_pv := k_pv kw; s_pv_wl := k_pv_wl kw;
        s_Lx := D; s_Ly := D; s_other_noise := [0]; s_kernel := [[1]]; s_frames := 1 |}.

(** ** RefImage *)
(* ref_image.py:52-77; the image is the list of its pixel values (ravel) *)
Record ref_image := { ri_img : list R; ri_gsd : R; ri_pix : list R; ri_refl : list R }.
Definition ref_image_init (img : list R) (gsd : R) (pix refl : option (list R)) : res ref_image :=
  match pix with
  | None =>
      let* lo := percentile img 0.2 in
      let* hi := percentile img 99.8 in
      Ok {| ri_img := img; ri_gsd := gsd; ri_pix := [lo; hi]; ri_refl := [0.05; 0.95] |}
  | Some p =>
      match refl with
      | None => Err ValueError
      | Some r => Ok {| ri_img := img; ri_gsd := gsd; ri_pix := p; ri_refl := r |}
      end
  end.

(* np.median of two numbers is their mean *)
Definition median2 (a b : R) : R := (a + b) / 2.

(* ref_image.py:79-117  estimate_capture_parameters.  Python float divisions
   raise; the division by ifov is a numpy division (np.arctan). *)
Definition estimate_capture_parameters (ri : ref_image) (alt : R) : res (sensor * world) :=
  let wl := [380 / 10 ^ 9; 700 / 10 ^ 9] in
  let scenario := init 1 alt 0 false
     (fun a => match a with
               | AircraftSpeed => 0 | HaWindSpeed => 0 | Cn2At1m => 0
               | TargetReflectance => 0.15 | TargetTemperature => 295
               | BackgroundReflectance => 0.07 | BackgroundTemperature => 293 end) in
  let p := 20 / 10 ^ 6 in
  let* f := pydiv (alt * p) (ri_gsd ri) in
  let* x := pydiv (p / 2) f in
  let ifov := 2 * atan x in
  match xdiv (Fin (4 * median2 (380 / 10 ^ 9) (700 / 10 ^ 9))) (Fin ifov) with
  | Fin D => let* s := sensor_init D f p wl 0 None None None default_kw in Ok (s, scenario)
  | _ => Err NonFinite (* cannot happen: ifov is not 0 *)
  end.
Definition default_capture_altitude : R := 2000000.   (* ref_image.py:79 *)
