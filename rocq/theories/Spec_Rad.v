(** * Spec_Rad: radiometry, stated without the model *)
From Coq Require Import Reals List Sorted.
Import ListNotations.
Open Scope R_scope.

(* CODATA 2014 values of Planck's constant, speed of light, Boltzmann's constant *)
Definition h_planck : R := 6.62607004 / 10 ^ 34.
Definition c_light : R := 299792458.
Definition k_boltz : R := 1.38064852 / 10 ^ 23.

(* Planck's law; at absolute zero nothing is emitted *)
Definition planck (lam T : R) : R :=
  if Req_EM_T T 0 then 0
  else 2 * h_planck * c_light ^ 2 / lam ^ 5 / (exp (h_planck * c_light / (lam * k_boltz * T)) - 1).

Definition photon_energy (lam : R) : R := h_planck * c_light / lam.

(* solid-angle factor pi / (1 + 4 (f/#)^2) *)
Definition cone (D f : R) : R := PI / (1 + 4 * (f / D) ^ 2).

(* area under the polygon through (x_i, y_i) *)
Fixpoint trapezoid (y x : list R) {struct y} : R :=
  match y with
  | [] => 0
  | y0 :: y' =>
      match x with
      | [] => 0
      | x0 :: x' =>
          match y', x' with
          | y1 :: _, x1 :: _ => (x1 - x0) * (y0 + y1) / 2 + trapezoid y' x'
          | _, _ => 0
          end
      end
  end.

(* x is listed in increasing order *)
Fixpoint ascending (x : list R) : Prop :=
  match x with
  | x0 :: ((x1 :: _) as x') => x0 <= x1 /\ ascending x'
  | _ => True
  end.

Definition all_nonneg (l : list R) : Prop := forall x, In x l -> 0 <= x.

(* [y] is what a table of samples says at [x]: zero outside the table, straight
   lines between neighbouring samples *)
Inductive reads (xs ys : list R) (x : R) : R -> Prop :=
| reads_below : (forall w, In w xs -> x < w) -> reads xs ys x 0
| reads_above : (forall w, In w xs -> w < x) -> reads xs ys x 0
| reads_node i : (i < length xs)%nat -> x = nth i xs 0 -> reads xs ys x (nth i ys 0)
| reads_between i : (S i < length xs)%nat -> nth i xs 0 <= x <= nth (S i) xs 0 ->
    reads xs ys x (nth i ys 0 + (nth (S i) ys 0 - nth i ys 0) * ((x - nth i xs 0) / (nth (S i) xs 0 - nth i xs 0))).

(** ** Sensors and scenes a user can build *)
From Verif Require Import Model_Sensor Model_Rad.

(* response tables that can be interpolated: not empty, one value per wavelength *)
Definition has_tables (s : sensor) : Prop :=
  s_owl s <> [] /\ length (s_owl s) = length (s_otr s) /\
  s_qwl s <> [] /\ length (s_qwl s) = length (s_qe s).

(* physically meaningful parameters *)
Record physical (s : sensor) : Prop := {
  ph_tables : has_tables s;
  ph_D : s_D s <> 0;
  ph_otr : all_nonneg (s_otr s); ph_qe : all_nonneg (s_qe s);
  ph_eta : -1 <= s_eta s <= 1;
  ph_wx : 0 <= s_wx s; ph_wy : 0 <= s_wy s;
  ph_time : 0 <= s_int_time s; ph_ntdi : 0 <= s_ntdi s; ph_dark : 0 <= s_dark s;
  ph_max_n : 0 < s_max_n s; ph_max_fill : 0 <= s_max_fill s; ph_bits : 0 < s_bits s;
  ph_Ts : 0 <= s_T_shield s; ph_To : 0 <= s_T_opt s; ph_Tf : 0 <= s_T_filt s;
  ph_eo : 0 <= s_e_opt s; ph_tf : 0 <= s_t_filt s; ph_ef : 0 <= s_e_filt s }.

Definition positive_wavelengths (wl : list R) : Prop := forall x, In x wl -> 0 < x.

(* the same camera with another exposure time or number of TDI stages *)
Definition with_int_time (s : sensor) (t : R) : sensor := {|
  s_D := s_D s; s_f := s_f s; s_px := s_px s; s_py := s_py s; s_wx := s_wx s; s_wy := s_wy s; s_eta := s_eta s;
  s_owl := s_owl s; s_otr := s_otr s; s_qwl := s_qwl s; s_qe := s_qe s;
  s_int_time := t; s_dark := s_dark s; s_other_irr := s_other_irr s; s_read := s_read s; s_max_n := s_max_n s;
  s_max_fill := s_max_fill s; s_bits := s_bits s; s_ntdi := s_ntdi s;
  s_T_shield := s_T_shield s; s_T_opt := s_T_opt s; s_e_opt := s_e_opt s; s_t_filt := s_t_filt s;
  s_T_filt := s_T_filt s; s_e_filt := s_e_filt s;
  s_sx := s_sx s; s_sy := s_sy s; s_dax := s_dax s; s_day := s_day s; s_pv := s_pv s; s_pv_wl := s_pv_wl s;
  s_Lx := s_Lx s; s_Ly := s_Ly s; s_other_noise := s_other_noise s; s_kernel := s_kernel s; s_frames := s_frames s |}.
Definition with_ntdi (s : sensor) (n : R) : sensor := {|
  s_D := s_D s; s_f := s_f s; s_px := s_px s; s_py := s_py s; s_wx := s_wx s; s_wy := s_wy s; s_eta := s_eta s;
  s_owl := s_owl s; s_otr := s_otr s; s_qwl := s_qwl s; s_qe := s_qe s;
  s_int_time := s_int_time s; s_dark := s_dark s; s_other_irr := s_other_irr s; s_read := s_read s; s_max_n := s_max_n s;
  s_max_fill := s_max_fill s; s_bits := s_bits s; s_ntdi := n;
  s_T_shield := s_T_shield s; s_T_opt := s_T_opt s; s_e_opt := s_e_opt s; s_t_filt := s_t_filt s;
  s_T_filt := s_T_filt s; s_e_filt := s_e_filt s;
  s_sx := s_sx s; s_sy := s_sy s; s_dax := s_dax s; s_day := s_day s; s_pv := s_pv s; s_pv_wl := s_pv_wl s;
  s_Lx := s_Lx s; s_Ly := s_Ly s; s_other_noise := s_other_noise s; s_kernel := s_kernel s; s_frames := s_frames s |}.
Definition with_max_n (s : sensor) (n : R) : sensor := {|
  s_D := s_D s; s_f := s_f s; s_px := s_px s; s_py := s_py s; s_wx := s_wx s; s_wy := s_wy s; s_eta := s_eta s;
  s_owl := s_owl s; s_otr := s_otr s; s_qwl := s_qwl s; s_qe := s_qe s;
  s_int_time := s_int_time s; s_dark := s_dark s; s_other_irr := s_other_irr s; s_read := s_read s; s_max_n := n;
  s_max_fill := s_max_fill s; s_bits := s_bits s; s_ntdi := s_ntdi s;
  s_T_shield := s_T_shield s; s_T_opt := s_T_opt s; s_e_opt := s_e_opt s; s_t_filt := s_t_filt s;
  s_T_filt := s_T_filt s; s_e_filt := s_e_filt s;
  s_sx := s_sx s; s_sy := s_sy s; s_dax := s_dax s; s_day := s_day s; s_pv := s_pv s; s_pv_wl := s_pv_wl s;
  s_Lx := s_Lx s; s_Ly := s_Ly s; s_other_noise := s_other_noise s; s_kernel := s_kernel s; s_frames := s_frames s |}.

(* default row for [nth] *)
Definition arow0 : arow := {| a_wl := 0; a_trans := 0; a_path := 0; a_surf := 0; a_scat := 0; a_grnd := 0 |}.

(* the rows of the atmosphere inside the transmission band of the optics *)
Definition in_band (s : sensor) (a : arow) : Prop :=
  exists lo hi, nth_error (s_owl s) 0 = Some lo /\ nth_error (s_owl s) (length (s_owl s) - 1) = Some hi /\ lo <= a_wl a <= hi.
Definition good_rows (s : sensor) (atm : list arow) : Prop :=
  (exists a, In a atm /\ in_band s a) /\ (forall a, In a atm -> in_band s a -> a_wl a <> 0).
Definition sound_rows (atm : list arow) : Prop :=
  forall a, In a atm -> 0 < a_wl a /\ 0 <= a_trans a /\ 0 <= a_path a /\ 0 <= a_scat a /\ 0 <= a_grnd a.

(** ** What the camera should count *)
(* radiance leaving a grey Lambertian target of reflectance r and temperature T
   seen through the atmosphere; the database holds the ground-reflected sunlight
   for a reflectance of 15% *)
Definition scene_radiance (r T : R) (a : arow) : R :=
  a_path a + a_scat a + (1 - r) * planck (a_wl a) T * a_trans a + r / 0.15 * a_grnd a.
(* thermal irradiance from the camera itself *)
Definition self_irradiance (s : sensor) (lam : R) : R :=
  (PI - cone (s_D s) (s_f s)) * planck lam (s_T_shield s)
  + cone (s_D s) (s_f s) * s_t_filt s * s_e_opt s * planck lam (s_T_opt s)
  + cone (s_D s) (s_f s) * s_e_filt s * planck lam (s_T_filt s).
(* photoelectrons per second and metre of wavelength in one pixel: optics with
   transmission tr and central obscuration eta, quantum efficiency q *)
Definition electrons (s : sensor) (tr q lam L : R) : R :=
  q * (s_wx s * s_wy s) *
  (s_t_filt s * (1 - (s_eta s) ^ 2) * tr * cone (s_D s) (s_f s) * L + self_irradiance s lam) / photon_energy lam.
(* photoelectrons collected from a target during an exposure; tr and q are the
   transmission and quantum efficiency at each wavelength *)
Definition collected (s : sensor) (tr q : R -> R) (atm : list arow) (t T r : R) : R :=
  (trapezoid (map (fun a => electrons s (tr (a_wl a)) (q (a_wl a)) (a_wl a) (scene_radiance r T a)) atm) (map a_wl atm)
   + s_dark s) * t * s_ntdi s.
Definition response_curves (s : sensor) (tr q : R -> R) : Prop :=
  (forall x, reads (s_owl s) (s_otr s) x (tr x)) /\ (forall x, reads (s_qwl s) (s_qe s) x (q x)).
Definition sorted_tables (s : sensor) : Prop := StronglySorted Rlt (s_owl s) /\ StronglySorted Rlt (s_qwl s).
