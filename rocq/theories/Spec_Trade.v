(** * Spec_Trade: changes to camera and air that can only do harm *)
From Coq Require Import Reals List.
From Verif Require Import Base_XR Base_Np Model_Scenario Model_Sensor Model_Rad Spec_Rad.
Import ListNotations.
Open Scope R_scope.

(* noise power that does not come from photons: quantisation of the full well in
   2^bits - 1 steps, read-out, any others *)
Definition electronic_noise (s : sensor) : R :=
  (s_max_n s / (Rpower 2 (s_bits s) - 1)) ^ 2 / 12 + s_read s ^ 2 + Rsum (map (fun x => x ^ 2) (s_other_noise s)).
(* the same camera with other electronics *)
Definition with_noise (s : sensor) (read bits : R) (other : list R) : sensor := {|
  s_D := s_D s; s_f := s_f s; s_px := s_px s; s_py := s_py s; s_wx := s_wx s; s_wy := s_wy s; s_eta := s_eta s;
  s_owl := s_owl s; s_otr := s_otr s; s_qwl := s_qwl s; s_qe := s_qe s; s_int_time := s_int_time s; s_dark := s_dark s;
  s_other_irr := s_other_irr s; s_read := read; s_max_n := s_max_n s; s_max_fill := s_max_fill s; s_bits := bits;
  s_ntdi := s_ntdi s; s_T_shield := s_T_shield s; s_T_opt := s_T_opt s; s_e_opt := s_e_opt s; s_t_filt := s_t_filt s;
  s_T_filt := s_T_filt s; s_e_filt := s_e_filt s; s_sx := s_sx s; s_sy := s_sy s; s_dax := s_dax s; s_day := s_day s;
  s_pv := s_pv s; s_pv_wl := s_pv_wl s; s_Lx := s_Lx s; s_Ly := s_Ly s; s_other_noise := other; s_kernel := s_kernel s;
  s_frames := s_frames s |}.
(* the same camera with other line-of-sight jitter and another wavefront error *)
Definition with_blur (s : sensor) (sx sy pv : R) : sensor := {|
  s_D := s_D s; s_f := s_f s; s_px := s_px s; s_py := s_py s; s_wx := s_wx s; s_wy := s_wy s; s_eta := s_eta s;
  s_owl := s_owl s; s_otr := s_otr s; s_qwl := s_qwl s; s_qe := s_qe s; s_int_time := s_int_time s; s_dark := s_dark s;
  s_other_irr := s_other_irr s; s_read := s_read s; s_max_n := s_max_n s; s_max_fill := s_max_fill s; s_bits := s_bits s;
  s_ntdi := s_ntdi s; s_T_shield := s_T_shield s; s_T_opt := s_T_opt s; s_e_opt := s_e_opt s; s_t_filt := s_t_filt s;
  s_T_filt := s_T_filt s; s_e_filt := s_e_filt s; s_sx := sx; s_sy := sy; s_dax := s_dax s; s_day := s_day s; s_pv := pv;
  s_pv_wl := s_pv_wl s; s_Lx := s_Lx s; s_Ly := s_Ly s; s_other_noise := s_other_noise s; s_kernel := s_kernel s;
  s_frames := s_frames s |}.
(* the same scenario with other turbulence at the ground and another wind aloft *)
Definition with_air (c : scen) (cn2 wind : R) : scen := {|
  ihaze := ihaze c; altitude := altitude c; ground_range := ground_range c; interp := interp c;
  plain := fun a => match a with Cn2At1m => cn2 | HaWindSpeed => wind | _ => plain c a end; cache := cache c |}.

(* a pixel that collects light *)
Definition exposes (s : sensor) : Prop :=
  0 < s_wx s /\ 0 < s_wy s /\ 0 < s_int_time s /\ 0 < s_ntdi s /\ 0 < s_max_fill s /\ 0 < s_t_filt s /\ -1 < s_eta s < 1.
(* light of at least two wavelengths reaches the camera, and it responds to one of
   them for which the air is not opaque *)
Definition sees_ground (s : sensor) (all : list arow) : Prop :=
  exists a b x y, In a all /\ In b all /\ in_band s a /\ in_band s b /\ a_wl a <> a_wl b /\
    reads (s_owl s) (s_otr s) (a_wl a) x /\ reads (s_qwl s) (s_qe s) (a_wl a) y /\ 0 < x /\ 0 < y /\ 0 < a_trans a.

(** ** Sampling *)
(* n pixels per resolution element at every wavelength in the band: the optical
   cutoff, in cycles per pixel, is at most 1/n (the edge response shifts all
   frequencies by 1e-6 cycles per radian) *)
Definition sampled (n : R) (s : sensor) (all : list arow) : Prop :=
  forall a, In a all -> in_band s a ->
    n * (s_px s / s_f s * (s_D s / a_wl a + 1 / 10 ^ 6)) <= 1 /\ n * (s_py s / s_f s * (s_D s / a_wl a + 1 / 10 ^ 6)) <= 1.
(* no wavelength in the band is longer than eight times another one *)
Definition three_octaves (s : sensor) (all : list arow) : Prop :=
  forall a b, In a all -> In b all -> in_band s a -> in_band s b -> a_wl a <= 8 * a_wl b.
(* as much or more jitter and wavefront error *)
Definition blurrier (s : sensor) (sx sy pv : R) : Prop := Rabs (s_sx s) <= Rabs sx /\ Rabs (s_sy s) <= Rabs sy /\ s_pv s <= pv.
(* as much or more turbulence at the ground and wind aloft *)
Definition rougher (c : scen) (cn2 wind : R) : Prop := plain c Cn2At1m <= cn2 /\ Rabs (plain c HaWindSpeed) <= Rabs wind.
