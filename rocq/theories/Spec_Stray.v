(** * Spec_Stray: parameters of a sensor that an analysis does not use (C137) *)
From Coq Require Import Reals List.
From Verif Require Import Base_XR Model_Scenario Model_Sensor.
Import ListNotations.
Open Scope R_scope.

(* the same camera with stray light E, in W per square metre and metre of wavelength
   (parameter other_irradiance) *)
Definition with_stray (s : sensor) (E : R) : sensor := {|
  s_D := s_D s; s_f := s_f s; s_px := s_px s; s_py := s_py s; s_wx := s_wx s; s_wy := s_wy s; s_eta := s_eta s;
  s_owl := s_owl s; s_otr := s_otr s; s_qwl := s_qwl s; s_qe := s_qe s;
  s_int_time := s_int_time s; s_dark := s_dark s; s_other_irr := E; s_read := s_read s; s_max_n := s_max_n s;
  s_max_fill := s_max_fill s; s_bits := s_bits s; s_ntdi := s_ntdi s;
  s_T_shield := s_T_shield s; s_T_opt := s_T_opt s; s_e_opt := s_e_opt s; s_t_filt := s_t_filt s; s_T_filt := s_T_filt s; s_e_filt := s_e_filt s;
  s_sx := s_sx s; s_sy := s_sy s; s_dax := s_dax s; s_day := s_day s; s_pv := s_pv s; s_pv_wl := s_pv_wl s;
  s_Lx := s_Lx s; s_Ly := s_Ly s; s_other_noise := s_other_noise s; s_kernel := s_kernel s; s_frames := s_frames s |}.
(* the same camera with other noise terms, stacked frames and limit on the well filling *)
Definition with_extras (s : sensor) (noise : list R) (n fill : R) : sensor := {|
  s_D := s_D s; s_f := s_f s; s_px := s_px s; s_py := s_py s; s_wx := s_wx s; s_wy := s_wy s; s_eta := s_eta s;
  s_owl := s_owl s; s_otr := s_otr s; s_qwl := s_qwl s; s_qe := s_qe s;
  s_int_time := s_int_time s; s_dark := s_dark s; s_other_irr := s_other_irr s; s_read := s_read s; s_max_n := s_max_n s;
  s_max_fill := fill; s_bits := s_bits s; s_ntdi := s_ntdi s;
  s_T_shield := s_T_shield s; s_T_opt := s_T_opt s; s_e_opt := s_e_opt s; s_t_filt := s_t_filt s; s_T_filt := s_T_filt s; s_e_filt := s_e_filt s;
  s_sx := s_sx s; s_sy := s_sy s; s_dax := s_dax s; s_day := s_day s; s_pv := s_pv s; s_pv_wl := s_pv_wl s;
  s_Lx := s_Lx s; s_Ly := s_Ly s; s_other_noise := noise; s_kernel := s_kernel s; s_frames := n |}.
(* the same scenario with other reflectances and temperatures of target and background *)
Definition with_scene (c : scen) (tr tt br bt : R) : scen := {|
  ihaze := ihaze c; altitude := altitude c; ground_range := ground_range c; interp := interp c; cache := cache c;
  plain := fun a => match a with TargetReflectance => tr | TargetTemperature => tt
    | BackgroundReflectance => br | BackgroundTemperature => bt | _ => plain c a end |}.
Definition scene_of (w : world) (tr tt br bt : R) : world :=
  {| sc := with_scene (sc w) tr tt br bt; heap := heap w; loads := loads w |}.
