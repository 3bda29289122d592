(** * Spec_Turn: the camera turned by a right angle about its line of sight *)
From Coq Require Import Reals List.
From Verif Require Import Base_XR Base_Np Model_Sensor.
Import ListNotations.
Open Scope R_scope.

(* pitches, pixel sizes, jitter, drift and wavefront correlation lengths change
   places; the mask (at most one row) stays *)
Definition turned (s : sensor) : sensor := {|
  s_D := s_D s; s_f := s_f s; s_px := s_py s; s_py := s_px s; s_wx := s_wy s; s_wy := s_wx s; s_eta := s_eta s;
  s_owl := s_owl s; s_otr := s_otr s; s_qwl := s_qwl s; s_qe := s_qe s; s_int_time := s_int_time s; s_dark := s_dark s;
  s_other_irr := s_other_irr s; s_read := s_read s; s_max_n := s_max_n s; s_max_fill := s_max_fill s; s_bits := s_bits s;
  s_ntdi := s_ntdi s; s_T_shield := s_T_shield s; s_T_opt := s_T_opt s; s_e_opt := s_e_opt s; s_t_filt := s_t_filt s;
  s_T_filt := s_T_filt s; s_e_filt := s_e_filt s; s_sx := s_sy s; s_sy := s_sx s; s_dax := s_day s; s_day := s_dax s;
  s_pv := s_pv s; s_pv_wl := s_pv_wl s; s_Lx := s_Ly s; s_Ly := s_Lx s; s_other_noise := s_other_noise s;
  s_kernel := s_kernel s; s_frames := s_frames s |}.
(* the values of a 101 x 101 table mirrored about its rising diagonal: the
   frequency (u, v) is found where (v, u) was *)
Definition mirrored {A} (l l' : list A) : Prop :=
  forall i j, (i <= 100)%nat -> (j <= 100)%nat -> nth_error l' (i * 101 + j) = nth_error l ((100 - j) * 101 + (100 - i)).
(* the same camera with another detector grid *)
Definition with_pitch (s : sensor) (px py : R) : sensor := {|
  s_D := s_D s; s_f := s_f s; s_px := px; s_py := py; s_wx := s_wx s; s_wy := s_wy s; s_eta := s_eta s;
  s_owl := s_owl s; s_otr := s_otr s; s_qwl := s_qwl s; s_qe := s_qe s; s_int_time := s_int_time s; s_dark := s_dark s;
  s_other_irr := s_other_irr s; s_read := s_read s; s_max_n := s_max_n s; s_max_fill := s_max_fill s; s_bits := s_bits s;
  s_ntdi := s_ntdi s; s_T_shield := s_T_shield s; s_T_opt := s_T_opt s; s_e_opt := s_e_opt s; s_t_filt := s_t_filt s;
  s_T_filt := s_T_filt s; s_e_filt := s_e_filt s; s_sx := s_sx s; s_sy := s_sy s; s_dax := s_dax s; s_day := s_day s;
  s_pv := s_pv s; s_pv_wl := s_pv_wl s; s_Lx := s_Lx s; s_Ly := s_Ly s; s_other_noise := s_other_noise s;
  s_kernel := s_kernel s; s_frames := s_frames s |}.
